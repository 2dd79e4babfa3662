(** The codec and tracebacks (proofs only). *)
From Coq Require Import List NArith ZArith Bool Lia.
From Coq Require Import ZifyBool ZifyNat ZifyN.
From Verif Require Import PyStr Ast Lex Codec PyStrFacts CodecSpec EnvSpec EnvFacts.
Import ListNotations.
Open Scope N_scope.

Lemma lower_char_case a b : 97 <= a <= 122 -> (lower_char b = a <-> b = a \/ b + 32 = a).
Proof. intros H. unfold lower_char. destruct ((65 <=? b) && (b <=? 90)) eqn:E; lia. Qed.
Lemma yupp_letters : Forall (fun a => 97 <= a <= 122) (lit "yupp").
Proof. repeat constructor; vm_compute; discriminate. Qed.
Lemma any_case_lower w s : Forall (fun a => 97 <= a <= 122) w -> (any_case w s <-> lower s = w).
Proof.
  intros Hw. revert s. induction Hw as [|a w Ha Hw IH]; intros s.
  - split; [inversion 1; reflexivity|]. destruct s; [constructor|discriminate].
  - split.
    + inversion 1 as [|? b ? s' Hb Hs]; subst. cbn [lower map]. f_equal; [|apply IH, Hs].
      apply lower_char_case; [exact Ha|]. tauto.
    + destruct s as [|b s]; [discriminate|]. cbn [lower map]. intros [= Hb Hs]. constructor; [|apply IH, Hs].
      apply lower_char_case in Hb; [|exact Ha]. tauto.
Qed.
Lemma plain_name_lower s : plain_name s <-> lower s = lit "yupp".
Proof. apply any_case_lower, yupp_letters. Qed.
Lemma startswith_spec p s : startswith p s = true <-> exists r, s = p ++ r.
Proof.
  revert s. induction p as [|c p IH]; intros s; cbn [startswith app].
  - split; [exists s; reflexivity|reflexivity].
  - destruct s as [|d s]; [split; [discriminate|intros (r & E); discriminate]|].
    rewrite andb_true_iff, IH, N.eqb_eq. split.
    + intros (-> & r & ->). exists r. reflexivity.
    + intros (r & E). injection E as -> ->. split; [reflexivity|exists r; reflexivity].
Qed.
Lemma find_dot p r : ~ In 46 p -> find_sub [c_dot] (p ++ 46 :: r) = Some (length p).
Proof.
  induction p as [|c p IH]; intros H; [reflexivity|].
  cbn [app find_sub startswith length]. change c_dot with 46.
  assert (Hc : 46 =? c = false) by (apply N.eqb_neq; intros E; apply H; left; congruence).
  rewrite Hc. cbn [andb]. change [46] with [c_dot]. rewrite IH by (intros X; apply H; right; exact X). reflexivity.
Qed.
Lemma find_dot_none p : ~ In 46 p -> find_sub [c_dot] p = None.
Proof.
  induction p as [|c p IH]; intros H; [reflexivity|].
  cbn [find_sub startswith length]. change c_dot with 46.
  assert (Hc : 46 =? c = false) by (apply N.eqb_neq; intros E; apply H; left; congruence).
  rewrite Hc. cbn [andb]. change [46] with [c_dot]. rewrite IH by (intros X; apply H; right; exact X). reflexivity.
Qed.
Lemma plain_no_dot s : plain_name s -> ~ In 46 s.
Proof.
  intros H. apply plain_name_lower in H. intros Hin. apply (in_map lower_char) in Hin. fold (lower s) in Hin.
  rewrite H in Hin. vm_compute in Hin. intuition discriminate.
Qed.
Lemma plain_length s : plain_name s -> length s = 4%nat.
Proof. intros H. apply plain_name_lower in H. rewrite <- (map_length lower_char). fold (lower s). rewrite H. reflexivity. Qed.
Lemma search_plain known s : plain_name s -> yupp_search known s = Ok (Some utf_8).
Proof.
  intros H. unfold yupp_search. rewrite (proj1 (plain_name_lower s) H). cbn [startswith].
  change (startswith pp_name (lit "yupp")) with true. cbn [negb].
  rewrite (find_dot_none s (plain_no_dot s H)), (plain_length s H). reflexivity.
Qed.
Lemma search_dotted known s : dotted_name known s ->
  exists msg, yupp_search known s = Err (Exn AttributeError msg).
Proof.
  intros (p & enc & -> & Hp & Hk). unfold yupp_search.
  assert (Hl : lower (p ++ 46 :: enc) = lit "yupp" ++ lower (46 :: enc)).
  { unfold lower. rewrite map_app. fold (lower p). rewrite (proj1 (plain_name_lower p) Hp). reflexivity. }
  rewrite Hl. assert (Hs : startswith pp_name (lit "yupp" ++ lower (46 :: enc)) = true).
  { apply startswith_spec. eexists. reflexivity. }
  rewrite Hs. cbn [negb]. rewrite (find_dot p enc (plain_no_dot p Hp)), (plain_length p Hp). cbn [Nat.eqb length pp_name negb].
  change (Nat.eqb 4 (length pp_name)) with true. cbn [negb].
  replace (skipn 5 (p ++ 46 :: enc)) with enc.
  - unfold search_encodings. rewrite Hk. eexists. reflexivity.
  - change (46 :: enc) with ([46] ++ enc). rewrite app_assoc.
    replace 5%nat with (length (p ++ [46])) by (rewrite app_length, (plain_length p Hp); reflexivity).
    symmetry. rewrite skipn_app, skipn_all, Nat.sub_diag. reflexivity.
Qed.
Lemma search_other known s : ~ plain_name s -> ~ dotted_name known s -> yupp_search known s = Ok None.
Proof.
  intros H1 H2. unfold yupp_search. destruct (startswith pp_name (lower s)) eqn:Es; [|reflexivity]. cbn [negb].
  apply startswith_spec in Es as (r & Er).
  assert (Hf : lower (firstn 4 s) = lit "yupp").
  { unfold lower. rewrite <- firstn_map. fold (lower s). rewrite Er. reflexivity. }
  destruct (find_sub [c_dot] s) as [dot|] eqn:Ed.
  - destruct (Nat.eqb dot (length pp_name)) eqn:El; [|reflexivity]. cbn [negb].
    apply Nat.eqb_eq in El. change (length pp_name) with 4%nat in El. subst dot.
    unfold search_encodings. destruct (known (skipn 5 s)) eqn:Ek; [|reflexivity].
    exfalso. apply H2. apply find_sub_some in Ed as (_ & Hx & _).
    exists (firstn 4 s), (skipn 5 s). split; [exact Hx|split; [apply plain_name_lower, Hf|exact Ek]].
  - destruct (Nat.eqb (length s) (length pp_name)) eqn:El; [|reflexivity]. exfalso. apply H1.
    apply Nat.eqb_eq in El. change (length pp_name) with 4%nat in El. apply plain_name_lower.
    rewrite <- Hf. f_equal. symmetry. apply firstn_all2. lia.
Qed.
(** ** C41 *)
Lemma feed_buffer (decode : list N -> text * nat) chunks : forall buffer, chunks <> [] ->
  buffer ++ concat chunks <> [] ->
  inc_feed decode buffer chunks = fst (decode (buffer ++ concat chunks)).
Proof.
  induction chunks as [|c [|c2 r] IH]; intros buffer Hne Hd; [contradiction| |].
  - cbn [concat] in *. rewrite app_nil_r in *. cbn [inc_feed]. unfold inc_decode, buffer_decode.
    destruct (buffer ++ c) eqn:E; [contradiction|]. destruct (decode (n :: l)). reflexivity.
  - change (inc_feed decode buffer (c :: c2 :: r)) with
      (let '(b, out) := inc_decode decode buffer c false in out ++ inc_feed decode b (c2 :: r)).
    unfold inc_decode, buffer_decode.
    assert (Eq : (let '(out, consumed) := match buffer ++ c with [] => ([], O) | _ :: _ => (@nil N, O) end in
      (skipn consumed (buffer ++ c), out)) = (buffer ++ c, @nil N)) by (destruct (buffer ++ c); reflexivity).
    rewrite Eq. cbn [app]. rewrite IH; [|discriminate|].
    + cbn [concat]. rewrite <- !app_assoc. reflexivity.
    + cbn [concat] in *. rewrite <- app_assoc. exact Hd.
Qed.
Lemma feed_all decode chunks : concat chunks <> [] ->
  inc_feed decode [] chunks = fst (decode (concat chunks)).
Proof.
  intros H. apply feed_buffer; [|exact H]. intros ->. apply H. reflexivity.
Qed.
Lemma feed_empty decode chunks : concat chunks = [] -> inc_feed decode [] chunks = [].
Proof.
  assert (G : forall chunks, Forall (fun c => c = []) chunks -> inc_feed decode [] chunks = []).
  { induction 1 as [|c r -> H IH]; [reflexivity|]. destruct r as [|c2 r]; [reflexivity|].
    change (inc_feed decode [] (c2 :: r) = []). exact IH. }
  intros H. apply G. induction chunks as [|c r IH]; [constructor|]. cbn in H. apply app_eq_nil in H as [-> H].
  constructor; [reflexivity|auto].
Qed.
(** ** C42 *)
Lemma shown_other files fn n : ~ In fn (names files) -> (1 <= n)%Z -> shown files fn n = (fn, (n + 1)%Z).
Proof.
  intros H Hn. unfold shown. rewrite (proj2 (dict_get_none files fn) H).
  replace (n - (Z.of_nat 0 - 1))%Z with (n + 1)%Z by lia. destruct (Z.ltb_spec (n + 1) 1); [lia|reflexivity].
Qed.
Lemma shown_subst files fn fn_o shrink n : gives files fn (fn_o, shrink) ->
  shown files fn n = (fn_o, Z.max 1 (n - Z.of_nat shrink + 1)).
Proof.
  intros H. unfold shown. apply dict_get_gives in H. rewrite H. f_equal.
  destruct (Z.ltb_spec (n - (Z.of_nat shrink - 1)) 1); lia.
Qed.
Lemma dict_get_set' {A} k k' (v : A) d : dict_get k (dict_set k' v d) = if teqb k k' then Some v else dict_get k d.
Proof.
  induction d as [|[k2 v2] d IH]; cbn [dict_set dict_get]; [reflexivity|].
  destruct (teqb_spec k' k2) as [->|Hn]; cbn [dict_get].
  - destruct (teqb k k2); reflexivity.
  - destruct (teqb_spec k k2) as [->|Hk]; [|exact IH].
    destruct (teqb_spec k2 k') as [->|_]; [contradiction|reflexivity].
Qed.
Lemma subst_gives realpath fn fn_o shrink files :
  gives (substitution realpath fn fn_o shrink files) (realpath fn) (realpath fn_o, shrink).
Proof. apply dict_get_gives. unfold substitution. rewrite dict_get_set', teqb_refl. reflexivity. Qed.
