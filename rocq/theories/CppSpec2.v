(** * What the macros of a C file stand for

    Besides which names are defined (CppSpec): what each of them is defined as. *)
From Coq Require Import List NArith Bool String.
From Verif Require Import PyStr Ast CppSpec.
Import ListNotations.
Open Scope list_scope.
Open Scope N_scope.

(** What is behind the name in a definition: its parameters, if it has any, and what it stands for *)
Definition definition_of (r : text) : text := past c_word (past c_blank r).
(** [M]: the macros that are defined and what is behind their names, the latest first *)
Definition forgotten (n : text) (M : list (text * text)) : list (text * text) := filter (fun p => negb (teqb (fst p) n)) M.
Section Macros.
Variable holds : text -> bool.
Fixpoint macros (k : list bool) (M : list (text * text)) (ls : list text) : list (text * text) :=
  match ls with
  | [] => M
  | l :: ls =>
      let on := forallb (fun c => c) k in
      let D n := existsb (fun p => teqb (fst p) n) M in
      match directive l with
      | None => macros k M ls
      | Some (w, n, r) =>
          if teqb w (lit "ifndef") then macros (negb (D n) :: k) M ls
          else if teqb w (lit "ifdef") then macros (D n :: k) M ls
          else if teqb w (lit "if") then macros (holds r :: k) M ls
          else if teqb w (lit "else") then macros (match k with c :: k => negb c :: k | [] => [] end) M ls
          else if teqb w (lit "endif") then macros (tl k) M ls
          else if teqb w (lit "define") then macros k (if on then (n, definition_of r) :: forgotten n M else M) ls
          else if teqb w (lit "undef") then macros k (if on then forgotten n M else M) ls
          else macros k M ls
      end
  end.
End Macros.
