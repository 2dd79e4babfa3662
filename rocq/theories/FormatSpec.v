(** * Vocabulary for the statements about format strings and macros *)
From Coq Require Import List NArith ZArith Bool.
From Verif Require Import PyStr Ast Eval EnvSpec EvalSpec.
Import ListNotations.
Open Scope N_scope.

(** A template: literal text and the places [($name)] *)
Inductive fitem := FLit (t : text) | FMark (name : text).
Definition mark (name : text) : text := lit "($" ++ name ++ lit ")".
Definition fsource (x : fitem) : text := match x with FLit t => t | FMark n => mark n end.
(** the text of the template as it is written *)
Definition written (items : list fitem) : text := concat (map fsource items).

(** no place can begin inside the text: it has no [($] and does not continue an opening
    parenthesis before it *)
Definition loose (t : text) : Prop :=
  (forall a b, t <> a ++ lit "($" ++ b) /\ (forall b, t <> lit "$" ++ b).
(** names have no parentheses *)
Definition plain_name (n : text) : Prop := ~ In 40 n /\ ~ In 41 n.
Definition ok_item (x : fitem) : Prop := match x with FLit t => loose t | FMark n => plain_name n end.
(** the places of the template are the marks, and there are no others *)
Definition readable (items : list fitem) : Prop := Forall ok_item items.

(** [substituted tab items t]: [t] is the template with every place named in [tab] replaced by
    its text, all at once; other places stay as they are *)
Inductive substituted (tab : list (text * text)) : list fitem -> text -> Prop :=
| SU_end : substituted tab [] []
| SU_lit t r u : substituted tab r u -> substituted tab (FLit t :: r) (t ++ u)
| SU_mark n v r u : gives tab n v -> substituted tab r u -> substituted tab (FMark n :: r) (v ++ u)
| SU_other n r u : ~ In n (names tab) -> substituted tab r u -> substituted tab (FMark n :: r) (mark n ++ u).
(** positional arguments are named 0, 1, 2, ... *)
Fixpoint numbered (i : nat) (us : list text) : list (text * text) :=
  match us with [] => [] | u :: r => (nat_text i, u) :: numbered (S i) r end.

(** the text that a value shows *)
Inductive shows : node -> text -> Prop :=
| SH_none : shows NNone []
| SH_str s : shows (NStr s) (s_txt s)
| SH_atom s : shows (NAtom s) (s_txt s)
| SH_raw t : shows (NRaw t) t
| SH_int z : shows (NInt z) (Z_text z)
| SH_nil : shows (NList []) []
| SH_cons x t l u : shows x t -> shows (NList l) u -> shows (NList (x :: l)) (t ++ u).
(** the named arguments are evaluated in order *)
Inductive named_evals ec parse : list (source * node) -> env -> yst -> list (text * node) -> env -> yst -> Prop :=
| NE_nil e s : named_evals ec parse [] e s [] e s
| NE_cons a x r e s v e1 s1 w e2 s2 : evals ec parse x e s v e1 s1 -> named_evals ec parse r e1 s1 w e2 s2 ->
    named_evals ec parse ((a, x) :: r) e s ((s_txt a, v) :: w) e2 s2.
Definition shows_named (b : text * node) (c : text * text) : Prop := fst b = fst c /\ shows (snd b) (snd c).

(** the text of a macro argument *)
Inductive inserts : node -> text -> Prop :=
| IN_str s : inserts (NStr s) (s_txt s)
| IN_atom s : inserts (NAtom s) (s_txt s)
| IN_raw t : inserts (NRaw t) t
| IN_int z : inserts (NInt z) (Z_text z)
| IN_nil : inserts (NList []) (lit "()").

(** [replaced old new s u]: [u] is [s] with every [old], from the left, replaced by [new] *)
Inductive replaced (old new : text) : text -> text -> Prop :=
| RE_end : replaced old new [] []
| RE_found r u : replaced old new r u -> replaced old new (old ++ r) (new ++ u)
| RE_kept c r u : (forall x, c :: r <> old ++ x) -> replaced old new r u -> replaced old new (c :: r) (c :: u).
(** one name of the table after the other; what is inserted for one is searched for the next *)
Inductive replaced_in_turn : list (text * text) -> text -> text -> Prop :=
| RT_end s : replaced_in_turn [] s s
| RT_more k v tab s s1 u : replaced (mark k) v s s1 -> replaced_in_turn tab s1 u -> replaced_in_turn ((k, v) :: tab) s u.
