(** Concrete cases for environments (proofs only). *)
From Coq Require Import List NArith ZArith.
From Verif Require Import PyStr Ast Eval EnvSpec EnvFacts.
Import ListNotations.
Lemma env_case :
  let inner := [(lit "a", NInt 1)] in
  let outer := [(lit "b", NInt 2); (lit "a", NInt 3)] in
  innermost [inner; outer] [inner] outer [] (lit "b") /\
  lookup [inner; outer] (lit "b") = Some (NInt 2) /\ lookup [inner; outer] (lit "a") = Some (NInt 1) /\
  update_variable (lit "b") (NInt 5) [inner; outer] = [inner; [(lit "b", NInt 5); (lit "a", NInt 3)]].
Proof.
  cbn zeta. split; [|repeat split; vm_compute; reflexivity].
  split; [reflexivity|]. split; [|left; reflexivity]. constructor; [|constructor].
  intros [H|[]]. discriminate.
Qed.
