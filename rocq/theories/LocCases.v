(** Concrete cases for locations (proofs only). *)
From Coq Require Import List NArith ZArith Lia.
From Verif Require Import PyStr Ast Loc LocSpec LocFacts.
Import ListNotations.
Open Scope N_scope.
Lemma pretty_case : ast_pretty (lit "f(a)b") = lit "f(a)" ++ [10] ++ lit "b" /\ padded (lit "f(a)b") (lit "f(a)" ++ [10] ++ lit "b").
Proof. assert (E : ast_pretty (lit "f(a)b") = lit "f(a)" ++ [10] ++ lit "b") by (vm_compute; reflexivity).
  split; [exact E|]. rewrite <- E. apply ast_pretty_padded. Qed.
Lemma loc_case :
  let sou := lit "one" ++ [10] ++ lit "  two" ++ [10] ++ lit "three" in
  in_line sou 7 (lit "one" ++ [10]) (lit "  two") (10 :: lit "three") /\ only_lf sou /\
  loc_line sou 7 = 2%nat /\ loc_caret sou 7 = 1%Z.
Proof.
  cbn zeta. split; [|split; [|split; vm_compute; reflexivity]].
  - split; [reflexivity|]. split; [right; exists (lit "one"); reflexivity|]. split; [vm_compute; intuition discriminate|].
    split; [right; eexists; reflexivity|]. cbn. lia.
  - repeat constructor; vm_compute; discriminate || reflexivity.
Qed.
