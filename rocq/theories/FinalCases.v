(** Concrete cases for the final text processing (proofs only). *)
From Coq Require Import List NArith ZArith Bool.
From Verif Require Import PyStr Ast Final FinalSpec FinalFacts.
Import ListNotations.
Open Scope N_scope.
Lemma every_text_lines t : exists ls, lines_of t ls.
Proof. eexists. apply lines_exist. Qed.
Lemma reduce_off t : reduce_emptiness false t = t.
Proof. reflexivity. Qed.
Lemma reduce_case :
  let t := lit "a  " ++ [13; 10; 32; 10; 10] ++ lit "  b" in
  lines_of t [lit "a  "; lit " "; []; lit "  b"] /\
  reduce_emptiness true t = lit "a" ++ [10; 10] ++ lit "  b" ++ [10].
Proof. split; [exact (lines_exist (lit "a  " ++ [13; 10; 32; 10; 10] ++ lit "  b"))|vm_compute; reflexivity]. Qed.
Lemma steady_case : replace_steady [97; 254; 98; 255; 10] = [97; 32; 98; 9; 10].
Proof. vm_compute. reflexivity. Qed.
