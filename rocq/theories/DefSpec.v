(** * Vocabulary for the statements about definitions *)
From Coq Require Import List NArith ZArith Bool String.
From Verif Require Import PyStr Ast Eval EnvSpec EvalSpec.
Import ListNotations.
Open Scope list_scope.

(** the names that a definition declares *)
Definition declared (lv : lval) : list text := match lv with LAtom a => [s_txt a] | LList l => map s_txt l end.
(** the scope in which the value of a definition is found: the names have no value yet *)
Definition no_values (ns : list text) : frame := map (fun n => (n, NBound)) ns.
(** names and values side by side; a name without a value gets nothing, with a warning *)
Inductive side_by_side : list text -> list node -> yst -> frame -> yst -> Prop :=
| SS_end vals s : side_by_side [] vals s [] s
| SS_value n r v vals s f s' : side_by_side r vals s f s' -> side_by_side (n :: r) (v :: vals) s ((n, v) :: f) s'
| SS_missing n r s f s' : side_by_side r [] (warn "there is nothing to assign" s) f s' ->
    side_by_side (n :: r) [] s ((n, NNone) :: f) s'.
(** the scope that a definition makes of the value [v] *)
Inductive assigned : lval -> node -> yst -> frame -> yst -> Prop :=
| AS_one a v s : assigned (LAtom a) v s [(s_txt a, v)] s
| AS_elements l v vals s f s' : list_of v = Some vals -> side_by_side (map s_txt l) vals s f s' -> assigned (LList l) v s f s'
| AS_same l v s : list_of v = None -> assigned (LList l) v s (map (fun a => (s_txt a, v)) l) s.
(** the setting of the output name is no definition *)
Definition no_setting (lv : lval) : Prop := match lv with LAtom a => s_txt a <> lit "__OUTPUT_FILE__" | LList _ => True end.
