(** What the names of the files and the options mean, for whole runs (proofs only). *)
From Coq Require Import List NArith ZArith Bool String.
From Verif Require Import PyStr Ast Parse Shell Pp ConfSpec ConfFacts.
Import ListNotations.
Open Scope list_scope.

Lemma language_is output b : language_of output b -> is_python output = b.
Proof.
  intros [|p n Hf Hp|p n Hf Hp]; [reflexivity| |]; unfold is_python, output_name; destruct p as [|c p].
  - inversion Hf as [? _|dir ? _]; subst; [inversion Hp as [[|? ?] ? ? ? ? ?]; discriminate|destruct dir; discriminate].
  - apply (script_spec (c :: p) n Hf), Hp.
  - reflexivity.
  - destruct (teqb _ _) eqn:E; [|reflexivity]. apply (script_spec (c :: p) n Hf) in E. contradiction.
Qed.
Lemma comments_is cfg python m : comments_of python (k_skip cfg) m -> skip_of cfg python = m.
Proof. unfold skip_of. intros H. remember (k_skip cfg) as k. destruct H; reflexivity. Qed.
Lemma comments_c cfg : skip_of cfg false = SkipC -> comments_of false (k_skip cfg) SkipC.
Proof.
  unfold skip_of. destruct (k_skip cfg =? 3)%Z eqn:E3; [apply Z.eqb_eq in E3; rewrite E3; intros _; apply (CM_language false)|].
  destruct (k_skip cfg =? 1)%Z eqn:E1; [apply Z.eqb_eq in E1; rewrite E1; intros _; constructor|].
  destruct (k_skip cfg =? 2)%Z; discriminate.
Qed.
Lemma named_is input key : source_named input key -> input_key input = key.
Proof. intros [| |p n Hp Hf]; try reflexivity. destruct p; [congruence|]. apply basename_file, Hf. Qed.
Lemma searched_is w cfg input dirs : searched (k_dirs cfg) (w_lib w) input dirs -> directories w cfg input = dirs.
Proof. intros [| |p d Hp Hd]; try reflexivity. destruct p as [|c p]; [congruence|]. unfold directories. rewrite (dirname_dir _ _ Hd). reflexivity. Qed.

Ltac reading H :=
  intros;
  repeat match goal with
  | L : language_of _ _ |- _ => apply language_is in L
  | L : comments_of _ (k_skip _) _ |- _ => apply comments_is in L
  | L : source_named _ _ |- _ => apply named_is in L
  | L : searched _ _ _ _ |- _ => apply searched_is in L
  end; subst; apply H; assumption.
