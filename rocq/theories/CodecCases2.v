(** Decoding a source (proofs only). *)
From Coq Require Import List NArith ZArith Bool Lia.
From Coq Require Import ZifyBool ZifyNat ZifyN.
From Verif Require Import PyStr PyStrFacts Ast Lex LexSpec EnvSpec Codec CodecSpec CodecFacts.
Import ListNotations.
Open Scope N_scope.

Lemma getline_end b r : ~ In 10 b -> getline_len (b ++ 10 :: r) = S (length b).
Proof. induction b as [|c b IH]; intros H; [reflexivity|]. cbn. destruct (N.eqb_spec c 10) as [->|_]; [exfalso; apply H; left; reflexivity|]. rewrite IH; [reflexivity|]. intros E. apply H. right. exact E. Qed.
Lemma getline_all b : ~ In 10 b -> getline_len b = length b.
Proof. induction b as [|c b IH]; intros H; [reflexivity|]. cbn. destruct (N.eqb_spec c 10) as [->|_]; [exfalso; apply H; left; reflexivity|]. rewrite IH; [reflexivity|]. intros E. apply H. right. exact E. Qed.
Lemma readline_line c l r : begins_with_line c l r -> readline c = (l, r).
Proof.
  intros [-> [(b & -> & Hb)|[-> Hb]]]; unfold readline.
  - rewrite <- app_assoc. cbn [app]. rewrite getline_end by exact Hb.
    replace (b ++ 10 :: r) with ((b ++ [10]) ++ r) by (rewrite <- app_assoc; reflexivity).
    replace (S (length b)) with (length (b ++ [10])) by (rewrite app_length; cbn; lia).
    rewrite firstn_app, skipn_app, Nat.sub_diag, firstn_all, skipn_all. cbn. rewrite app_nil_r. reflexivity.
  - rewrite app_nil_r, getline_all by exact Hb. rewrite firstn_all, skipn_all. reflexivity.
Qed.
Lemma contains_occurs p s : contains p s = true <-> occurs p s.
Proof.
  unfold contains. destruct (find_sub p s) as [i|] eqn:E.
  - split; [intros _|reflexivity]. apply find_sub_some in E. destruct E as (_ & E & _).
    exists (firstn i s), (skipn (i + length p) s). exact E.
  - split; [discriminate|]. intros (a & b & ->). pose proof (find_sub_none _ _ E (length a)) as H.
    rewrite skipn_app, skipn_all, Nat.sub_diag in H. cbn [app skipn] in H.
    assert (K : startswith p (p ++ b) = true) by (apply startswith_spec; exists b; reflexivity). congruence.
Qed.
Lemma first_declared c l r : begins_with_line c l r -> occurs (lit "coding:") l -> stream_text (Some c) r = c.
Proof.
  intros H O. unfold stream_text, read_header. rewrite (readline_line _ _ _ H). apply contains_occurs in O. rewrite O. destruct H as [H _]. congruence.
Qed.
Lemma second_declared c l1 r1 l2 r2 : begins_with_line c l1 r1 -> ~ occurs (lit "coding:") l1 -> begins_with_line r1 l2 r2 -> stream_text (Some c) r2 = c.
Proof.
  intros H O H2. unfold stream_text, read_header. rewrite (readline_line _ _ _ H), (readline_line _ _ _ H2).
  destruct (contains (lit "coding:") l1) eqn:E; [apply contains_occurs in E; contradiction|]. destruct H as [H _]. destruct H2 as [H2 _]. subst. cbn [fst]. rewrite <- app_assoc. reflexivity.
Qed.
Lemma doubled_line c l1 r1 l2 r2 : begins_with_line c l1 r1 -> ~ occurs (lit "coding:") l1 -> begins_with_line r1 l2 r2 -> stream_text (Some c) r1 = l1 ++ l2 ++ l2 ++ r2.
Proof.
  intros H O H2. unfold stream_text, read_header. rewrite (readline_line _ _ _ H), (readline_line _ _ _ H2).
  destruct (contains (lit "coding:") l1) eqn:E; [apply contains_occurs in E; contradiction|]. destruct H2 as [H2 _]. subst. cbn [fst]. rewrite <- app_assoc. reflexivity.
Qed.
Definition equals_file : text := lit "# coding=yupp" ++ 10 :: lit "n += 1" ++ [10].
Lemma not_there p s : contains p s = false -> ~ occurs p s.
Proof. intros H O. apply contains_occurs in O. congruence. Qed.
Lemma line_end_is (b r : text) : forallb (fun c => negb (c =? 10)) b = true -> begins_with_line (b ++ 10 :: r) (b ++ [10]) r.
Proof.
  intros H. split; [rewrite <- app_assoc; reflexivity|]. left. exists b. split; [reflexivity|]. intros E. rewrite forallb_forall in H. apply H in E. discriminate E.
Qed.
Lemma equals_refuted : exists l r, begins_with_line equals_file l r /\ occurs (lit "coding=yupp") l /\
  stream_text (Some equals_file) r = lit "# coding=yupp" ++ 10 :: lit "n += 1" ++ 10 :: lit "n += 1" ++ [10].
Proof.
  exists (lit "# coding=yupp" ++ [10]), (lit "n += 1" ++ [10]). split; [apply line_end_is; reflexivity|]. split; [exists (lit "# "), [10]; reflexivity|]. reflexivity.
Qed.
Lemma declared_case : let c := lit "#!/usr/bin/python" ++ 10 :: lit "# coding: yupp" ++ 10 :: lit "x" in
  begins_with_line c (lit "#!/usr/bin/python" ++ [10]) (lit "# coding: yupp" ++ 10 :: lit "x") /\ ~ occurs (lit "coding:") (lit "#!/usr/bin/python" ++ [10]) /\
  begins_with_line (lit "# coding: yupp" ++ 10 :: lit "x") (lit "# coding: yupp" ++ [10]) (lit "x") /\ occurs (lit "coding:") (lit "# coding: yupp" ++ [10]).
Proof.
  cbv zeta. split; [apply line_end_is; reflexivity|]. split; [apply not_there; reflexivity|]. split; [apply line_end_is; reflexivity|].
  apply contains_occurs. reflexivity.
Qed.
Lemma declared_text c r : declared c r -> stream_text (Some c) r = c.
Proof. intros [l H O|l1 r1 l2 H O H2]; [apply (first_declared c l r H O)|apply (second_declared c l1 r1 l2 r H O H2)]. Qed.
Lemma decode_file base syntax realpath fn process c r input bytes code fn_o shrink files :
  declared c r -> base input = (r, bytes) -> process c = Some (true, code, fn_o, shrink) ->
  exists files', decode base syntax realpath (Some c) fn process input files = (if syntax code then code else [], bytes, files') /\
    dict_get (realpath fn) files' = Some (realpath fn_o, shrink).
Proof.
  intros D H P. eexists. unfold decode. rewrite H, (declared_text _ _ D), P. split; [reflexivity|].
  unfold substitution. rewrite dict_get_set'. rewrite teqb_refl. reflexivity.
Qed.
Lemma decode_failed base syntax realpath fn process c r input bytes files :
  declared c r -> base input = (r, bytes) -> (forall code fn_o shrink, process c <> Some (true, code, fn_o, shrink)) ->
  decode base syntax realpath (Some c) fn process input files = ([], bytes, files).
Proof.
  intros D H P. unfold decode. rewrite H, (declared_text _ _ D). destruct (process c) as [[[[[] code] fn_o] shrink]|]; [exfalso; exact (P _ _ _ eq_refl)|reflexivity|reflexivity].
Qed.
Definition declared_file : text := lit "#!/usr/bin/python" ++ 10 :: lit "# coding: yupp" ++ 10 :: lit "x".
Lemma declared_case' : declared declared_file (lit "x").
Proof. destruct declared_case as (H1 & H2 & H3 & _). exact (DC_second _ _ _ _ _ H1 H2 H3). Qed.
