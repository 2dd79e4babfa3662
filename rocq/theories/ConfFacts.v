(** Names of files (proofs only). *)
From Coq Require Import List NArith ZArith Bool Lia ZifyBool ZifyNat ZifyN.
From Verif Require Import PyStr PyStrFacts Ast Lex Parse Shell ShellSpec ShellFacts Pp ConfSpec.
Import ListNotations.
Open Scope N_scope.

Lemma basename_file p n : file_of p n -> basename p = n.
Proof. intros [n' H|dir n' H]; [apply basename_simple, H|apply basename_slash, H]. Qed.
Lemma file_of_nonempty p n : file_of p n -> n <> [] -> p <> [].
Proof. intros [n' H|dir n' H] N; [exact N|]. destruct dir; discriminate. Qed.
Lemma file_of_total p : exists n, file_of p n.
Proof.
  destruct (rfind_char 47 p) as [i|] eqn:E.
  - apply rfind_char_some in E as (a & b & -> & _ & H). exists b. apply FN_in, H.
  - apply rfind_char_none in E. exists p. apply FN_alone, E.
Qed.
Lemma rstrip_slashes k : rstrip_slash (repeat 47 k) = [].
Proof. induction k as [|k IH]; [reflexivity|]. cbn [repeat rstrip_slash]. rewrite IH. reflexivity. Qed.
Lemma rstrip_slash_keeps dir c k : c <> 47 -> rstrip_slash (dir ++ c :: repeat 47 k) = dir ++ [c].
Proof.
  intros N. induction dir as [|d dir IH]; cbn [app rstrip_slash].
  - rewrite rstrip_slashes. change c_slash with 47. destruct (N.eqb_spec c 47); [contradiction|reflexivity].
  - rewrite IH. destruct dir; reflexivity.
Qed.
Lemma head_of a n : ~ In 47 n -> firstn (base_index (a ++ 47 :: n)) (a ++ 47 :: n) = a ++ [47].
Proof.
  intros H. unfold base_index. change c_slash with 47. rewrite rfind_char_last by exact H. change (a ++ 47 :: n) with (a ++ [47] ++ n). rewrite app_assoc.
  replace (S (length a)) with (length (a ++ [47])) by (rewrite app_length; cbn; lia). apply firstn_length_app.
Qed.
Lemma repeat_end (k : nat) : repeat 47 (S k) = repeat 47 k ++ [47].
Proof. induction k as [|k IH]; [reflexivity|]. cbn [repeat app] in *. rewrite <- IH. reflexivity. Qed.
Lemma dirname_dir p d : directory_of p d -> dirname p = d.
Proof.
  intros [n H|k n H|dir c k n N H]; unfold dirname.
  - unfold base_index. change c_slash with 47. apply rfind_char_none in H. rewrite H. reflexivity.
  - rewrite repeat_end, <- app_assoc. cbn [app]. rewrite head_of by exact H. rewrite <- repeat_end. rewrite rstrip_slashes. reflexivity.
  - rewrite repeat_end, <- app_assoc. cbn [app]. change (dir ++ c :: repeat 47 k ++ 47 :: n) with (dir ++ (c :: repeat 47 k) ++ 47 :: n). rewrite app_assoc. rewrite head_of by exact H.
    rewrite <- app_assoc. cbn [app]. rewrite <- repeat_end. rewrite rstrip_slash_keeps by exact N. destruct dir; reflexivity.
Qed.
Lemma directory_of_total p : exists d, directory_of p d.
Proof.
  destruct (rfind_char 47 p) as [i|] eqn:E.
  - apply rfind_char_some in E as (a & n & -> & _ & H). clear i.
    assert (X : exists b k, a = b ++ repeat 47 k /\ (b = [] \/ exists dir c, b = dir ++ [c] /\ c <> 47)).
    { induction a as [|x a (b & k & -> & B)] using rev_ind; [exists [], O; auto|]. destruct (N.eqb_spec x 47) as [->|Nx].
      - exists b, (S k). rewrite repeat_end, app_assoc. auto.
      - exists ((b ++ repeat 47 k) ++ [x]), O. rewrite app_nil_r. split; [reflexivity|]. right. eauto. }
    destruct X as (b & k & -> & B). rewrite <- app_assoc. replace (repeat 47 k ++ 47 :: n) with (repeat 47 (S k) ++ n) by (rewrite repeat_end, <- app_assoc; reflexivity).
    destruct B as [-> | (dir & c & -> & N)].
    + exists (repeat 47 (S k)). apply DN_root, H.
    + exists (dir ++ [c]). rewrite <- app_assoc. apply (DN_dir dir c k n N H).
  - apply rfind_char_none in E. exists []. apply DN_none, E.
Qed.
Lemma lower_py e : lower e = lit ".py" <-> exists p y, e = [46; p; y] /\ (p = 112 \/ p = 80) /\ (y = 121 \/ y = 89).
Proof.
  split.
  - intros H. destruct e as [|a [|p [|y [|z e]]]]; try discriminate H. change (lit ".py") with [46; 112; 121] in H. cbn [lower map] in H. unfold lower_char in H. injection H as H1 H2 H3.
    assert (a = 46) by (destruct ((65 <=? a) && (a <=? 90)) eqn:E; lia). subst a. exists p, y. split; [reflexivity|].
    destruct ((65 <=? p) && (p <=? 90)) eqn:E1; destruct ((65 <=? y) && (y <=? 90)) eqn:E2; lia.
  - intros (p & y & -> & [-> | ->] & [-> | ->]); reflexivity.
Qed.
Lemma splitext_some p : snd (splitext p) <> [] -> ~ In 47 p -> Exists (fun c => c <> 46) (fst (splitext p)).
Proof.
  unfold splitext. destruct (rfind_char c_dot p) as [d|] eqn:E; [|intros H; contradiction]. destruct (Nat.leb (base_index p) d && _) eqn:B; [|intros H; contradiction].
  intros _ N. cbn [fst]. apply andb_true_iff in B as [_ B]. apply existsb_exists in B as (c & Hc & Nc).
  assert (Z : base_index p = O) by (unfold base_index; change c_slash with 47; apply rfind_char_none in N; rewrite N; reflexivity).
  rewrite Z in Hc. cbn [skipn] in Hc. rewrite Nat.sub_0_r in Hc. apply Exists_exists. exists c. split; [exact Hc|]. unfold c_dot in Nc. lia.
Qed.
Lemma python_file_spec n : ~ In 47 n -> (teqb (lower (snd (splitext n))) (lit ".py") = true <-> python_file n).
Proof.
  intros S1. rewrite teqb_eq, lower_py. split.
  - intros (p & y & E & Hp & Hy). pose proof (splitext_app n) as A. rewrite E in A. rewrite <- A. apply PF_py; [|exact Hp|exact Hy]. apply splitext_some; [rewrite E; discriminate|exact S1].
  - intros P. inversion P as [name p y X Hp Hy E]. subst n. exists p, y. split; [|auto]. rewrite splitext_stem; [reflexivity| | |].
    + exists [], name. split; [reflexivity|]. split; [left; reflexivity|]. split; [|exact X]. intros H. apply S1. apply in_or_app. left. exact H.
    + intros [H|[H|[]]]; lia.
    + intros [H|[H|[]]]; lia.
Qed.
Lemma script_spec path n : file_of path n -> (teqb (lower (snd (splitext (basename path)))) (lit ".py") = true <-> python_file n).
Proof. intros F. rewrite (basename_file _ _ F). apply python_file_spec. destruct F as [n' H|dir n' H]; exact H. Qed.

Section Run.
Variables (w : world) (cfg : config).
Lemma language input p n : file_of p n -> (c_python (run_ctx w cfg input (Some p)) = true <-> python_file n).
Proof.
  intros F. unfold run_ctx. cbn [c_python]. unfold is_python, output_name. destruct p as [|c p].
  - inversion F as [n' H|dir n' H E]; [|destruct dir; discriminate E]. subst. split; [discriminate|]. intros P. inversion P as [name p y X Hp Hy E]. destruct name; discriminate E.
  - apply script_spec, F.
Qed.
Lemma language_default input : c_python (run_ctx w cfg input None) = false.
Proof. reflexivity. Qed.
Lemma comments input output m : comments_of (c_python (run_ctx w cfg input output)) (k_skip cfg) m -> c_skip (run_ctx w cfg input output) = m.
Proof.
  unfold run_ctx. cbn [c_python c_skip]. unfold skip_of. intros H. inversion H as [E|E|E|E]; reflexivity.
Qed.
Lemma source_name output p n : file_of p n -> p <> [] -> c_main (run_ctx w cfg (Some p) output) = n.
Proof. intros F N. unfold run_ctx. cbn [c_main]. unfold input_key. destruct p as [|c p]; [congruence|]. apply basename_file, F. Qed.
Lemma search_path output p d : directory_of p d -> p <> [] -> c_dirs (run_ctx w cfg (Some p) output) = d :: k_dirs cfg ++ [w_lib w].
Proof. intros F N. unfold run_ctx. cbn [c_dirs]. unfold directories. destruct p as [|c p]; [congruence|]. rewrite (dirname_dir _ _ F). reflexivity. Qed.
End Run.
