(** Merging and concatenating offset tables (proofs only). *)
From Coq Require Import List NArith ZArith Bool Lia ZifyBool ZifyNat ZifyN.
From Verif Require Import PyStr Ast Lex Parse Final PyStrFacts OffsetSpec OffsetFacts.
Import ListNotations.
Open Scope Z_scope.

Definition moved_entry (d0 : Z) (e : Z * Z) : Z * Z := (fst e - d0, snd e + d0).
Definition inner (d0 pos : Z) (q : otab) : otab :=
  flat_map (fun e => if fst e - d0 <? pos then [moved_entry d0 e] else []) q.
Lemma merge_inner_spec P d0 pos : forall cnt i, (i + cnt <= length P)%nat ->
  merge_inner P i cnt d0 pos = inner d0 pos (firstn cnt (skipn i P)).
Proof.
  induction cnt as [|c IH]; intros i Hi; [reflexivity|]. cbn [merge_inner]. destruct (nth i P (0, 0)) as [p d] eqn:E.
  assert (Hs : skipn i P = (p, d) :: skipn (S i) P).
  { clear IH. assert (Hl : (i < length P)%nat) by lia. clear Hi. revert i E Hl. induction P as [|e P IHP]; intros i E Hl; cbn [length] in Hl; [lia|].
    destruct i as [|i]; cbn [nth] in E; [subst; reflexivity|]. cbn [skipn]. apply IHP; [exact E|lia]. }
  rewrite Hs. cbn [firstn]. unfold inner. cbn [flat_map fst]. rewrite (IH (S i)) by lia. reflexivity.
Qed.
Lemma count_mono P x y : x <= y -> (count P x <= count P y)%nat.
Proof.
  intros H. induction P as [|[p d] P IH]; cbn [count]; [lia|]. destruct (Z.leb_spec p x), (Z.leb_spec p y); lia.
Qed.
Lemma look_shift Q d0 x : forall d, look (d + d0) (map (moved_entry d0) Q) x = look d Q (x + d0) + d0.
Proof.
  induction Q as [|[p e] Q IH]; intros d; [reflexivity|]. cbn [map look moved_entry fst snd].
  destruct (Z.leb_spec (p - d0) x), (Z.leb_spec p (x + d0)); try lia. apply IH.
Qed.
Lemma look_stop a : forall d0 p d r x, x < p -> look d0 (a ++ (p, d) :: r) x = look d0 a x.
Proof.
  induction a as [|[q e] a IH]; intros d0 p d r x H; cbn [app look].
  - destruct (Z.leb_spec p x); [lia|reflexivity].
  - destruct (q <=? x); [apply IH, H|reflexivity].
Qed.
Lemma inner_none q d0 pos : Forall (fun e => pos + d0 <= fst e) q -> inner d0 pos q = [].
Proof.
  induction 1 as [|e q H _ IH]; [reflexivity|]. unfold inner. cbn [flat_map]. destruct (Z.ltb_spec (fst e - d0) pos); [lia|exact IH].
Qed.
Lemma inner_look q d0 pos x : x < pos -> forall s d, sorted s q -> look (d + d0) (inner d0 pos q) x = look d q (x + d0) + d0.
Proof.
  intros Hx. induction q as [|[p e] q IH]; intros s d Hs; [reflexivity|]. cbn [sorted] in Hs. destruct Hs as [_ Hs].
  unfold inner. cbn [flat_map fst]. destruct (Z.ltb_spec (p - d0) pos).
  - cbn [app look moved_entry fst snd]. destruct (Z.leb_spec (p - d0) x), (Z.leb_spec p (x + d0)); try lia. apply (IH p), Hs.
  - cbn [look]. destruct (Z.leb_spec p (x + d0)); [lia|]. cbn [app]. fold (inner d0 pos q). rewrite inner_none; [reflexivity|].
    apply sorted_ge in Hs. eapply Forall_impl; [|exact Hs]. cbn. intros; lia.
Qed.
Lemma inner_low q d0 pos : Forall (fun e => fst e < pos) (inner d0 pos q).
Proof.
  induction q as [|[p e] q IH]; [constructor|]. unfold inner. cbn [flat_map fst]. destruct (Z.ltb_spec (p - d0) pos); [|exact IH].
  cbn [app]. constructor; [cbn; lia|exact IH].
Qed.
Lemma steps_last r : forall p d y, steps p d r -> p <= y -> p + d <= y + look d r y.
Proof.
  induction r as [|[q e] r IH]; intros p d y H Hy; cbn [look]; [lia|]. cbn [steps] in H. destruct H as (H1 & H2 & H3 & H4).
  destruct (Z.leb_spec q y); [|lia]. specialize (IH q e y H4 H). lia.
Qed.
Lemma steps_from P : forall p0 d y, steps p0 d P -> p0 <= y -> steps y (look d P y) (skipn (count P y) P).
Proof.
  induction P as [|[p e] P IH]; intros p0 d y H Hy; [exact I|]. cbn [steps] in H. destruct H as (H1 & H2 & H3 & H4).
  cbn [look count]. destruct (Z.leb_spec p y); cbn [skipn]; [apply (IH p); assumption|]. cbn [steps]. repeat split; try lia. exact H4.
Qed.
Lemma steps_firstn n : forall P p d, steps p d P -> steps p d (firstn n P).
Proof.
  induction n as [|n IH]; intros [|[q e] P] p d H; cbn [firstn]; try exact I. cbn [steps] in *.
  destruct H as (H1 & H2 & H3 & H4). repeat split; try assumption. apply IH, H4.
Qed.
Lemma inner_steps delta T d0 pos : forall q pos0 da, steps (pos0 + d0) da q -> pos0 <= pos -> d0 - 1 <= delta -> pos0 + d0 <= pos + delta ->
  Forall (fun e => fst e <= pos + delta) q -> steps pos (look da q (pos + delta) + delta) T ->
  steps pos0 (da + d0) (inner d0 pos q ++ (pos, look da q (pos + delta) + delta) :: T).
Proof.
  induction q as [|[p e] q IH]; intros pos0 da Hs H1 H2 H3 Hq HT.
  - cbn [inner flat_map app steps look] in *. repeat split; try lia. exact HT.
  - cbn [steps] in Hs. destruct Hs as (S1 & S2 & S3 & S4). inversion Hq as [|? ? Q1 Q2]; subst. cbn [fst] in Q1.
    cbn [look] in HT |- *. destruct (Z.leb_spec p (pos + delta)); [|lia]. unfold inner. cbn [flat_map fst].
    destruct (Z.ltb_spec (p - d0) pos).
    + cbn [app steps moved_entry fst snd]. repeat split; try lia. apply IH; try assumption; try lia. replace (p - d0 + d0) with p by lia. exact S4.
    + cbn [app]. fold (inner d0 pos q). rewrite inner_none.
      * cbn [app steps]. pose proof (steps_last q p e (pos + delta) S4 H). repeat split; try lia. exact HT.
      * apply steps_ge in S4. eapply Forall_impl; [|exact S4]. cbn. intros; lia.
Qed.
Lemma steps_map Q d0 : forall pos0 da, steps (pos0 + d0) da Q -> steps pos0 (da + d0) (map (moved_entry d0) Q).
Proof.
  induction Q as [|[p e] Q IH]; intros pos0 da H; [exact I|]. cbn [steps map moved_entry fst snd] in *.
  destruct H as (H1 & H2 & H3 & H4). repeat split; try lia. apply IH. replace (p - d0 + d0) with p by lia. exact H4.
Qed.
Lemma look_from P : forall s d y z, sorted s P -> y <= z -> look d P z = look (look d P y) (skipn (count P y) P) z.
Proof.
  induction P as [|[p e] P IH]; intros s d y z Hs Hy; [reflexivity|]. cbn [sorted] in Hs. destruct Hs as [_ Hs]. cbn [look count].
  destruct (Z.leb_spec p y) as [Hp|Hp]; cbn [skipn].
  - destruct (Z.leb_spec p z); [|lia]. apply (IH p); assumption.
  - cbn [look]. reflexivity.
Qed.
Lemma count_skip P : forall s i y, sorted s P -> (i <= count P y)%nat -> count (skipn i P) y = (count P y - i)%nat.
Proof.
  induction P as [|[p e] P IH]; intros s i y Hs Hi; cbn [count] in *; [destruct i; reflexivity|].
  destruct i as [|i]; [cbn [skipn count]; lia|]. cbn [skipn]. cbn [sorted] in Hs. destruct Hs as [_ Hs].
  destruct (Z.leb_spec p y); [|lia]. rewrite (IH p i y Hs) by lia. lia.
Qed.

Section Merge.
Variable P : otab.
Hypothesis HP : steps 0 0 P.
Lemma P_sorted : sorted 0 P.
Proof. apply (steps_sorted P 0 0 HP). Qed.
Definition state (pos0 d0 : Z) (i0 : nat) (da : Z) : Prop :=
  (forall y, pos0 + d0 <= y -> (i0 <= count P y)%nat /\ look 0 P y = look da (skipn i0 P) y) /\
  steps (pos0 + d0) da (skipn i0 P).
Lemma state_next pos0 d0 i0 da pos delta : state pos0 d0 i0 da -> 0 <= pos0 + d0 -> pos0 + d0 <= pos + delta ->
  state pos delta (count P (pos + delta)) (look da (skipn i0 P) (pos + delta)).
Proof.
  intros [H1 H2] H0 H. destruct (H1 (pos + delta) H) as [Ha Hb]. rewrite <- Hb. split.
  - intros y Hy. split; [apply count_mono; lia|]. apply (look_from P 0); [apply P_sorted|exact Hy].
  - apply (steps_from P 0 0); [exact HP|lia].
Qed.
Lemma first_split i0 pos0 d0 da y : state pos0 d0 i0 da -> pos0 + d0 <= y ->
  firstn (count P y - i0) (skipn i0 P) = firstn (count (skipn i0 P) y) (skipn i0 P).
Proof.
  intros [H1 _] Hy. destruct (H1 y Hy) as [Ha _]. rewrite (count_skip P 0 i0 y P_sorted Ha). reflexivity.
Qed.
Lemma look_first Q d y : look d (firstn (count Q y) Q) y = look d Q y.
Proof.
  revert d. induction Q as [|[p e] Q IH]; intros d; [reflexivity|]. cbn [count]. destruct (Z.leb_spec p y); cbn [firstn look].
  - destruct (Z.leb_spec p y); [apply IH|lia].
  - destruct (Z.leb_spec p y); [lia|reflexivity].
Qed.
Lemma look_first_le Q d y x : x <= y -> look d (firstn (count Q y) Q) x = look d Q x.
Proof.
  intros Hx. revert d. induction Q as [|[p e] Q IH]; intros d; [reflexivity|]. cbn [count]. destruct (Z.leb_spec p y); cbn [firstn look].
  - destruct (Z.leb_spec p x); [apply IH|reflexivity].
  - destruct (Z.leb_spec p x); [lia|reflexivity].
Qed.
(** one turn of the loop *)
Lemma merge_cons pos0 d0 i0 da pos delta r : state pos0 d0 i0 da -> pos0 + d0 <= pos + delta ->
  merge_loop P ((pos, delta) :: r) d0 i0 =
  inner d0 pos (firstn (count (skipn i0 P) (pos + delta)) (skipn i0 P)) ++
  (pos, look da (skipn i0 P) (pos + delta) + delta) :: merge_loop P r delta (count P (pos + delta)).
Proof.
  intros Hst Hp. cbn [merge_loop]. rewrite (bisect_count P 0) by apply P_sorted.
  destruct Hst as [H1 H2]. destruct (H1 (pos + delta) Hp) as [Ha Hb].
  rewrite merge_inner_spec by (pose proof (count_le P (pos + delta)); lia).
  rewrite (first_split i0 pos0 d0 da) by (try exact Hp; split; assumption). rewrite Nat.max_r by exact Ha. rewrite <- Hb, look_count. reflexivity.
Qed.
Lemma merge_look O : forall pos0 d0 i0 da x, state pos0 d0 i0 da -> 0 <= pos0 + d0 -> steps pos0 d0 O -> pos0 <= x ->
  look (da + d0) (merge_loop P O d0 i0) x = look 0 P (x + look d0 O x) + look d0 O x.
Proof.
  induction O as [|[pos delta] r IH]; intros pos0 d0 i0 da x Hst H0 Hs Hx.
  - cbn [merge_loop look]. change (fun e : Z * Z => (fst e - d0, snd e + d0)) with (moved_entry d0). rewrite look_shift.
    destruct Hst as [H1 _]. destruct (H1 (x + d0)) as [_ Hb]; [lia|]. rewrite Hb. reflexivity.
  - cbn [steps] in Hs. destruct Hs as (S1 & S2 & S3 & S4). rewrite (merge_cons pos0 d0 i0 da pos delta r Hst S3). cbn [look].
    assert (Hq : exists s, sorted s (firstn (count (skipn i0 P) (pos + delta)) (skipn i0 P))).
    { exists (pos0 + d0). eapply steps_sorted, steps_firstn. apply Hst. }
    destruct (Z.leb_spec pos x) as [Hpx|Hpx].
    + rewrite look_app.
      * cbn [look]. destruct (Z.leb_spec pos x); [|lia]. apply (IH pos delta); [|lia|exact S4|exact Hpx].
        eapply state_next; eassumption.
      * eapply Forall_impl; [|apply inner_low]. cbn. intros; lia.
    + rewrite look_stop by exact Hpx. destruct Hq as [s Hq]. rewrite (inner_look _ d0 pos x Hpx s da Hq).
      rewrite look_first_le by lia. destruct Hst as [H1 _]. destruct (H1 (x + d0)) as [_ Hb]; [lia|]. rewrite Hb. reflexivity.
Qed.
Lemma merge_steps O : forall pos0 d0 i0 da, state pos0 d0 i0 da -> 0 <= pos0 + d0 -> steps pos0 d0 O ->
  steps pos0 (da + d0) (merge_loop P O d0 i0).
Proof.
  induction O as [|[pos delta] r IH]; intros pos0 d0 i0 da Hst H0 Hs.
  - cbn [merge_loop]. change (fun e : Z * Z => (fst e - d0, snd e + d0)) with (moved_entry d0). apply steps_map, Hst.
  - cbn [steps] in Hs. destruct Hs as (S1 & S2 & S3 & S4). rewrite (merge_cons pos0 d0 i0 da pos delta r Hst S3).
    rewrite <- (look_first (skipn i0 P) da (pos + delta)). apply inner_steps; try lia.
    + apply steps_firstn, Hst.
    + apply count_split.
    + rewrite look_first. apply IH; [|lia|exact S4]. eapply state_next; eassumption.
Qed.
Lemma merge_bound l lu O : Forall (fun e => fst e <= lu) P -> forall pos0 d0 i0 da, state pos0 d0 i0 da -> 0 <= pos0 + d0 -> steps pos0 d0 O ->
  Forall (fun e => fst e <= l) O -> l + look d0 O l = lu -> Forall (fun e => fst e <= l) (merge_loop P O d0 i0).
Proof.
  intros HPl. induction O as [|[pos delta] r IH]; intros pos0 d0 i0 da Hst H0 Hs Hb Hl.
  - cbn [merge_loop look] in *. apply Forall_map. assert (H : Forall (fun e => fst e <= lu) (skipn i0 P)).
    { rewrite <- (firstn_skipn i0 P) in HPl. apply Forall_app in HPl. apply HPl. }
    eapply Forall_impl; [|exact H]. cbn. intros e; lia.
  - cbn [steps] in Hs. destruct Hs as (S1 & S2 & S3 & S4). inversion Hb as [|? ? B1 B2]; subst. cbn [fst] in B1.
    rewrite (merge_cons pos0 d0 i0 da pos delta r Hst S3). apply Forall_app. split.
    + eapply Forall_impl; [|apply inner_low]. cbn. intros; lia.
    + constructor; [exact B1|]. eapply IH; [eapply state_next; eassumption|lia|exact S4|exact B2|].
      cbn [look]. destruct (Z.leb_spec pos l); lia.
Qed.
Lemma state_init : state 0 0 0 0.
Proof. split; [intros y _; split; [lia|reflexivity]|exact HP]. Qed.
End Merge.

(** ** Tables of edited texts *)
(** [valid tab l n]: the table of a text of length [l] that came from one of length [n] *)
Definition valid (tab : otab) (l n : Z) : Prop :=
  0 <= l /\ steps 0 0 tab /\ Forall (fun e => fst e <= l) tab /\ look 0 tab l = n - l.
Lemma merge_valid P O l lu n : valid P lu n -> valid O l lu ->
  valid (merge_offset P O) l n /\
  forall x, 0 <= x -> look 0 (merge_offset P O) x = look 0 P (x + look 0 O x) + look 0 O x.
Proof.
  intros (_ & P1 & P2 & P3) (O0 & O1 & O2 & O3). unfold merge_offset.
  assert (Hl : forall x, 0 <= x -> look 0 (merge_loop P O 0 0) x = look 0 P (x + look 0 O x) + look 0 O x).
  { intros x Hx. apply (merge_look P P1 O 0 0 0%nat 0 x (state_init P P1)); [lia|exact O1|exact Hx]. }
  split; [|exact Hl]. split; [exact O0|]. split; [|split].
  - apply (merge_steps P P1 O 0 0 0%nat 0 (state_init P P1)); [lia|exact O1].
  - apply (merge_bound P P1 l lu O P2 0 0 0%nat 0 (state_init P P1)); [lia|exact O1|exact O2|lia].
  - rewrite Hl by exact O0. rewrite O3. replace (l + (lu - l)) with lu by lia. rewrite P3. lia.
Qed.
Lemma valid_nil l : 0 <= l -> valid [] l l.
Proof. intros H. split; [exact H|]. split; [exact I|]. split; [constructor|]. cbn. lia. Qed.
Definition base (tab : otab) : Z := match tab with [] => 0 | _ => snd (last tab (0, 0)) end.
Lemma base_look tab l : Forall (fun e => fst e <= l) tab -> look 0 tab l = base tab.
Proof. intros H. rewrite look_low by exact H. destruct tab; reflexivity. Qed.
Lemma steps_app a : forall b p d, steps p d a -> steps (fst (last a (p, d))) (snd (last a (p, d))) b -> steps p d (a ++ b).
Proof.
  induction a as [|[q e] a IH]; intros b p d Ha Hb; [exact Hb|]. cbn [app steps] in *. destruct Ha as (H1 & H2 & H3 & H4).
  repeat split; try assumption. apply IH; [exact H4|].
  replace (last a (q, e)) with (last ((q, e) :: a) (p, d)); [exact Hb|]. destruct a as [|f a]; [reflexivity|].
  cbn [last]. clear. revert f. induction a as [|g a IH]; intros f; [reflexivity|]. apply (IH g).
Qed.
Definition joined (a b : otab) (l : Z) : otab := a ++ map (fun '(p, v) => (p + l, v + base a)) b.
Lemma joined_valid a b l1 n1 l2 n2 : valid a l1 n1 -> valid b l2 n2 -> valid (joined a b l1) (l1 + l2) (n1 + n2) /\
  (forall x, 0 <= x < l1 -> look 0 (joined a b l1) x = look 0 a x) /\
  (forall x, 0 <= x -> look 0 (joined a b l1) (l1 + x) = base a + look 0 b x) /\ base a = n1 - l1.
Proof.
  intros (A0 & A1 & A2 & A3) (B0 & B1 & B2 & B3).
  assert (Hbase : base a = n1 - l1) by (rewrite <- (base_look a l1 A2); exact A3).
  assert (Hge : Forall (fun e => 0 <= fst e) b) by (apply steps_ge in B1; exact B1).
  assert (Hmap : forall x d0, look (d0 + base a) (map (fun '(p, v) => (p + l1, v + base a)) b) (l1 + x) = base a + look d0 b x).
  { intros x. clear -b. induction b as [|[p v] b IH]; intros d0; cbn [map look]; [lia|].
    destruct (Z.leb_spec (p + l1) (l1 + x)), (Z.leb_spec p x); try lia. apply IH. }
  assert (Hhi : forall x, 0 <= x -> look 0 (joined a b l1) (l1 + x) = base a + look 0 b x).
  { intros x Hx. unfold joined. rewrite look_app; [|eapply Forall_impl; [|exact A2]; cbn; intros; lia].
    rewrite (look_low a 0 (l1 + x)) by (eapply Forall_impl; [|exact A2]; cbn; intros; lia).
    replace (snd (last a (0, 0))) with (0 + base a) by (destruct a; reflexivity). apply Hmap. }
  split; [|split; [|split; [exact Hhi|exact Hbase]]].
  - split; [lia|]. split; [|split].
    + unfold joined. apply steps_app; [exact A1|].
      replace (snd (last a (0, 0))) with (base a) by (destruct a; reflexivity).
      assert (Hlast : fst (last a (0, 0)) <= l1).
      { destruct a as [|e a]; [exact A0|]. rewrite Forall_forall in A2. apply A2. destruct (exists_last (l := e :: a) ltac:(discriminate)) as (a' & y & E). rewrite E, last_last. apply in_or_app. right. left. reflexivity. }
      revert Hlast. generalize (fst (last a (0, 0))). intros q Hq. clear -B1 Hq.
      assert (H : steps 0 0 b -> q - l1 <= 0 -> steps q (0 + base a) (map (fun '(p, v) => (p + l1, v + base a)) b)).
      { clear B1. assert (G : forall b p d, steps p d b -> steps (p + l1) (d + base a) (map (fun '(p, v) => (p + l1, v + base a)) b)).
        { clear. induction b as [|[p v] b IH]; intros q d H; [exact I|]. cbn [map steps] in *. destruct H as (H1 & H2 & H3 & H4).
          repeat split; try lia. apply IH, H4. }
        intros Hb Hq'. destruct b as [|[p v] b]; [exact I|]. cbn [map steps] in *. destruct Hb as (H1 & H2 & H3 & H4).
        repeat split; try lia. apply G, H4. }
      apply H; [exact B1|lia].
    + unfold joined. apply Forall_app. split; [eapply Forall_impl; [|exact A2]; cbn; intros; lia|].
      apply Forall_map. eapply Forall_impl; [|exact B2]. intros [p v]; cbn. lia.
    + rewrite Hhi by exact B0. rewrite B3. lia.
  - intros x Hx. unfold joined. apply look_app_cut. exists l1. split; [lia|]. apply Forall_map.
    eapply Forall_impl; [|exact Hge]. intros [p v]; cbn. lia.
Qed.
