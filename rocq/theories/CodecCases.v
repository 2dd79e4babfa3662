(** Concrete cases for the codec (proofs only). *)
From Coq Require Import List NArith ZArith Bool.
From Verif Require Import PyStr Ast Codec CodecSpec CodecFacts EnvSpec EnvFacts.
Import ListNotations.
Open Scope N_scope.
Lemma codec_case : plain_name (lit "YuPp") /\ dotted_name (fun _ => true) (lit "yupp.latin-1") /\
  ~ plain_name (lit "yuppie") /\ ~ dotted_name (fun _ => false) (lit "yupp.xx").
Proof.
  split; [apply plain_name_lower; reflexivity|].
  split; [exists (lit "yupp"), (lit "latin-1"); split; [reflexivity|split; [apply plain_name_lower; reflexivity|reflexivity]]|].
  split; [intros H; apply plain_length in H; discriminate|].
  intros (p & enc & _ & _ & H). discriminate.
Qed.
Lemma feed_empty_differs : exists decode : list N -> text * nat, inc_feed decode [] [[]] <> fst (decode []).
Proof. exists (fun _ => ([10], O)). discriminate. Qed.
Lemma feed_case : inc_feed (fun l => (l ++ [33], length l)) [] [[97]; []; [98; 99]; []] = [97; 98; 99; 33].
Proof. reflexivity. Qed.
Lemma traceback_case :
  let files := substitution (fun x => x) (lit "m.yu") (lit "m") 2 [] in
  gives files (lit "m.yu") (lit "m", 2%nat) /\ ~ In (lit "o.py") (names files) /\
  shown files (lit "m.yu") 7 = (lit "m", 6%Z) /\ shown files (lit "o.py") 7 = (lit "o.py", 8%Z).
Proof.
  cbn zeta. split; [apply subst_gives|]. split; [vm_compute; intuition discriminate|].
  split; vm_compute; reflexivity.
Qed.
