(** Offset tables (proofs only). *)
From Coq Require Import List NArith ZArith Bool Lia ZifyBool ZifyNat ZifyN.
From Verif Require Import PyStr Ast Lex Parse Final PyStrFacts OffsetSpec.
Import ListNotations.
Open Scope Z_scope.

(** ** Looking up *)
Fixpoint look (d0 : Z) (tab : otab) (x : Z) : Z :=
  match tab with
  | [] => d0
  | (p, d) :: r => if p <=? x then look d r x else d0
  end.
(** a table that never goes back; [pos], [d]: the entry before *)
Fixpoint steps (pos d : Z) (tab : otab) : Prop :=
  match tab with
  | [] => True
  | (p, e) :: r => pos <= p /\ d - 1 <= e /\ pos + d <= p + e /\ steps p e r
  end.
Lemma steps_ge tab : forall pos d, steps pos d tab -> Forall (fun e => pos <= fst e) tab.
Proof.
  induction tab as [|[p e] r IH]; intros pos d H; [constructor|]. cbn [steps] in H. destruct H as (H1 & _ & _ & H4).
  constructor; [exact H1|]. eapply Forall_impl; [|apply (IH p e H4)]. cbn. intros; lia.
Qed.
Lemma look_high tab : forall d0 x, Forall (fun e => x < fst e) tab -> look d0 tab x = d0.
Proof.
  intros d0 x H. destruct H as [|[p d] r H _]; [reflexivity|]. cbn [look fst] in *. destruct (Z.leb_spec p x); [lia|reflexivity].
Qed.
Lemma look_app a b : forall d0 x, Forall (fun e => fst e <= x) a -> look d0 (a ++ b) x = look (look d0 a x) b x.
Proof.
  induction a as [|[p d] a IH]; intros d0 x H; [reflexivity|]. inversion H as [|? ? H1 H2]; subst. cbn [app look fst] in *.
  destruct (Z.leb_spec p x); [apply IH, H2|lia].
Qed.
Lemma look_low a : forall d0 x, Forall (fun e => fst e <= x) a -> look d0 a x = snd (last a (0, d0)).
Proof.
  induction a as [|[p d] a IH]; intros d0 x H; [reflexivity|]. inversion H as [|? ? H1 H2]; subst. cbn [look fst] in *.
  destruct (Z.leb_spec p x); [|lia]. rewrite IH by exact H2. destruct a as [|e a]; [reflexivity|]. cbn [last].
  clear. revert e. induction a as [|f a IH]; intros e; [reflexivity|]. apply (IH f).
Qed.
Lemma look_app_cut a b d0 x : (exists y, x < y /\ Forall (fun e => y <= fst e) b) -> look d0 (a ++ b) x = look d0 a x.
Proof.
  intros (y & Hy & Hb). revert d0. induction a as [|[p d] a IH]; intros d0; cbn [app look].
  - apply look_high. eapply Forall_impl; [|exact Hb]. cbn. intros; lia.
  - destruct (p <=? x); [apply IH|reflexivity].
Qed.
(** the number of entries up to [x] *)
Fixpoint count (tab : otab) (x : Z) : nat :=
  match tab with
  | [] => O
  | (p, _) :: r => if p <=? x then S (count r x) else O
  end.
Fixpoint sorted (pos : Z) (tab : otab) : Prop :=
  match tab with [] => True | (p, _) :: r => pos <= p /\ sorted p r end.
Lemma steps_sorted tab : forall pos d, steps pos d tab -> sorted pos tab.
Proof. induction tab as [|[p e] r IH]; intros pos d H; [exact I|]. cbn [steps sorted] in *. split; [apply H|eapply IH, H]. Qed.
Lemma sorted_ge tab : forall pos, sorted pos tab -> Forall (fun e => pos <= fst e) tab.
Proof.
  induction tab as [|[p e] r IH]; intros pos H; [constructor|]. cbn [sorted] in H. destruct H as (H1 & H4).
  constructor; [exact H1|]. eapply Forall_impl; [|apply (IH p H4)]. cbn. intros; lia.
Qed.
Lemma count_le tab x : (count tab x <= length tab)%nat.
Proof. induction tab as [|[p e] r IH]; cbn [count length]; [lia|]. destruct (p <=? x); lia. Qed.
Lemma count_nth tab : forall pos x i, sorted pos tab -> (i < length tab)%nat ->
  (fst (nth i tab (0, 0)) <= x <-> (i < count tab x)%nat).
Proof.
  induction tab as [|[p e] r IH]; intros pos x i H Hi; cbn [length] in Hi; [lia|]. cbn [sorted count] in *. destruct H as [H1 H2].
  destruct i as [|i]; cbn [nth].
  - cbn [fst]. destruct (Z.leb_spec p x); lia.
  - rewrite (IH p x i H2) by lia. destruct (Z.leb_spec p x) as [Hp|Hp]; [lia|].
    split; [|lia]. intros Hc. exfalso. assert (Hk : (i < length r)%nat) by lia.
    pose proof (proj2 (IH p x i H2 Hk) Hc) as Hf. apply sorted_ge in H2. rewrite Forall_forall in H2.
    specialize (H2 _ (nth_In r (0, 0) Hk)). lia.
Qed.
Lemma div2_lt lo hi : (lo < hi)%nat -> (lo <= Nat.div2 (lo + hi) < hi)%nat.
Proof. intros H. rewrite Nat.div2_div. split; [apply Nat.div_le_lower_bound; lia|apply Nat.div_lt_upper_bound; lia]. Qed.
Lemma bisect_loop_spec tab pos x : sorted pos tab -> forall n lo hi, (hi - lo < n)%nat -> (hi <= length tab)%nat ->
  (lo <= count tab x <= hi)%nat -> bisect_loop n tab x lo hi = count tab x.
Proof.
  intros Hs. induction n as [|n IH]; intros lo hi Hn Hh Hc; [lia|]. cbn [bisect_loop].
  destruct (Nat.ltb_spec lo hi) as [Hl|Hl]; [|lia]. pose proof (div2_lt lo hi Hl) as Hd.
  set (mid := Nat.div2 (lo + hi)) in *. assert (Hm : (mid < length tab)%nat) by lia.
  pose proof (count_nth tab pos x mid Hs Hm) as Hcn. destruct (Z.ltb_spec x (fst (nth mid tab (0, 0)))) as [Hx|Hx].
  - apply IH; [lia|lia|]. split; [lia|]. destruct (Nat.le_gt_cases (count tab x) mid); [assumption|]. apply Hcn in H. lia.
  - apply IH; [lia|lia|]. apply Hcn in Hx. lia.
Qed.
Lemma bisect_count tab pos x : sorted pos tab -> bisect tab x = count tab x.
Proof.
  intros Hs. unfold bisect. eapply bisect_loop_spec; [exact Hs|lia|lia|]. pose proof (count_le tab x). lia.
Qed.
Lemma count_split tab x : firstn (count tab x) tab ++ skipn (count tab x) tab = tab /\
  Forall (fun e => fst e <= x) (firstn (count tab x) tab).
Proof.
  split; [apply firstn_skipn|]. induction tab as [|[p e] r IH]; cbn [count]; [constructor|].
  destruct (Z.leb_spec p x); cbn [firstn]; [|constructor]. constructor; [exact H|exact IH].
Qed.
Lemma look_count tab : forall d0 x, look d0 tab x = match count tab x with O => d0 | S k => snd (nth k tab (0, 0)) end.
Proof.
  induction tab as [|[p e] r IH]; intros d0 x; cbn [look count]; [reflexivity|]. destruct (p <=? x); [|reflexivity].
  rewrite IH. destruct (count r x); reflexivity.
Qed.
Lemma skip_high tab : forall pos x, sorted pos tab -> Forall (fun e => x < fst e) (skipn (count tab x) tab).
Proof.
  induction tab as [|[p e] r IH]; intros pos x H; cbn [count]; [constructor|]. cbn [sorted] in H. destruct H as [H1 H2].
  destruct (Z.leb_spec p x); cbn [skipn]; [apply (IH p), H2|]. constructor; [exact H|].
  apply sorted_ge in H2. eapply Forall_impl; [|exact H2]. cbn. intros; lia.
Qed.
Lemma look_in_force tab pos x : sorted pos tab -> in_force tab x (look 0 tab x).
Proof.
  intros Hs. exists (firstn (count tab x) tab), (skipn (count tab x) tab). destruct (count_split tab x) as [H1 H2].
  split; [symmetry; exact H1|]. split; [exact H2|]. split; [eapply skip_high, Hs|].
  rewrite look_count. pose proof (count_le tab x) as Hl. destruct (count tab x) as [|k]; [left; auto|right].
  exists (firstn k tab), (fst (nth k tab (0, 0))). clear -Hl. revert tab Hl. induction k as [|k IH]; intros [|[p d] tab] Hl; cbn [length] in Hl; try lia.
  - reflexivity.
  - change (firstn (S (S k)) ((p, d) :: tab)) with ((p, d) :: firstn (S k) tab). rewrite (IH tab) by lia. reflexivity.
Qed.
