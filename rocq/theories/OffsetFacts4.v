(** Texts built by trimming, concatenation and reduction (proofs only). *)
From Coq Require Import List NArith ZArith Bool Lia ZifyBool ZifyNat ZifyN.
From Verif Require Import PyStr Ast Lex Parse Final PyStrFacts FinalSpec TrimSpec TrimFacts TrimFacts2 OffsetSpec OffsetFacts OffsetFacts2 OffsetFacts3.
Import ListNotations.
Open Scope nat_scope.

(** ** Lines with their ends *)
Fixpoint ended (lines : list text) : Prop :=
  match lines with
  | [] => True
  | ln :: r => ln <> [] /\ (r <> [] -> exists x b, ln = x ++ [b] /\ py_isbreak b = true) /\ ended r
  end.
Lemma keep_ended n : forall u, length u <= n -> concat (splitlines_keep u) = u /\ ended (splitlines_keep u).
Proof.
  induction n as [|n IH]; intros u Hn; [destruct u; [split; [reflexivity|exact I]|cbn [length] in Hn; lia]|].
  destruct u as [|c r]; [split; [reflexivity|exact I]|]. cbn [length] in Hn. cbn [splitlines_keep].
  destruct (py_isbreak c) eqn:Ec.
  - destruct (c =? 13)%N eqn:E13.
    + destruct r as [|d r]; [split; [reflexivity|]; split; [discriminate|split; [congruence|exact I]]|].
      destruct (d =? 10)%N eqn:E10.
      * apply N.eqb_eq in E10. subst d. cbn [length] in Hn. destruct (IH r) as [H1 H2]; [lia|]. split; [cbn [concat app]; rewrite H1; reflexivity|].
        split; [discriminate|]. split; [|exact H2]. intros _. exists [c], 10%N. split; reflexivity.
      * destruct (IH (d :: r)) as [H1 H2]; [cbn [length] in *; lia|]. split; [cbn [concat app]; rewrite H1; reflexivity|].
        split; [discriminate|]. split; [|exact H2]. intros _. exists [], c. split; [reflexivity|exact Ec].
    + destruct (IH r) as [H1 H2]; [lia|]. split; [cbn [concat app]; rewrite H1; reflexivity|].
      split; [discriminate|]. split; [|exact H2]. intros _. exists [], c. split; [reflexivity|exact Ec].
  - destruct (IH r) as [H1 H2]; [lia|]. destruct (splitlines_keep r) as [|l ls].
    + cbn [concat] in H1. subst r. split; [reflexivity|]. split; [discriminate|split; [congruence|exact I]].
    + cbn [concat app] in *. rewrite H1. split; [reflexivity|]. cbn [ended] in H2. destruct H2 as (K1 & K2 & K3).
      split; [discriminate|]. split; [|exact K3]. intros Hr. destruct (K2 Hr) as (x & b & -> & Hb). exists (c :: x), b. auto.
Qed.
Lemma cutting_prefix ks : forall c t, blank c -> cutting_loop ks (Some c) = Some t ->
  blank t /\ (c <> [] -> prefix t c) /\ forall k, In k ks -> line_empty k = false -> prefix t k.
Proof.
  induction ks as [|k ks IH]; intros c t Hb H; cbn [cutting_loop] in H.
  - injection H as <-. split; [exact Hb|]. split; [intros _; apply prefix_refl|intros k []].
  - destruct (line_empty k) eqn:Ek.
    + destruct (IH c t Hb H) as (H1 & H2 & H3). split; [exact H1|]. split; [exact H2|]. intros x [<-|Hx] Hex; [congruence|auto].
    + destruct (leading k) as [|i0 i] eqn:Ei; [rewrite cutting_none in H; discriminate H|].
      assert (Hbi : blank (i0 :: i)) by (rewrite <- Ei; apply leading_blank).
      assert (Hpi : prefix (i0 :: i) k) by (rewrite <- Ei; apply leading_prefix).
      destruct c as [|c0 c].
      * destruct (IH (i0 :: i) t Hbi H) as (H1 & H2 & H3). specialize (H2 ltac:(discriminate)).
        split; [exact H1|]. split; [intros Hc; contradiction|]. intros x [<-|Hx] Hex; [eapply prefix_trans; eassumption|auto].
      * destruct (startswith (c0 :: c) (i0 :: i)) eqn:Es; [|destruct (startswith (i0 :: i) (c0 :: c)) eqn:Es2].
        -- apply startswith_prefix in Es. destruct (IH (c0 :: c) t Hb H) as (H1 & H2 & H3). specialize (H2 ltac:(discriminate)).
           split; [exact H1|]. split; [intros _; exact H2|]. intros x [<-|Hx] Hex; [|auto].
           eapply prefix_trans; [exact H2|]. eapply prefix_trans; eassumption.
        -- apply startswith_prefix in Es2. destruct (IH (i0 :: i) t Hbi H) as (H1 & H2 & H3). specialize (H2 ltac:(discriminate)).
           split; [exact H1|]. split; [intros _; eapply prefix_trans; eassumption|]. intros x [<-|Hx] Hex; [|auto].
           eapply prefix_trans; eassumption.
        -- rewrite cutting_none in H. discriminate H.
Qed.
Definition shared (lines : list text) : text := cut_text (cutting lines).
Lemma shared_spec lines : blank (shared lines) /\ forall k, In k lines -> line_empty k = false -> prefix (shared lines) k.
Proof.
  unfold shared, cutting. destruct (cutting_loop lines (Some [])) as [t|] eqn:E; cbn [cut_text].
  - apply cutting_prefix in E; [|constructor]. split; apply E.
  - split; [constructor|]. intros k _ _. exists k. reflexivity.
Qed.
Lemma prefix_break t x b : blank t -> py_isbreak b = true -> prefix t (x ++ [b]) -> length t < length (x ++ [b]).
Proof.
  intros Hb Hbr [y Hy]. destruct y as [|z y].
  - rewrite app_nil_r in Hy. rewrite <- Hy in Hb. apply Forall_app in Hb as [_ Hb]. inversion Hb as [|? ? [H|H] _]; subst; discriminate Hbr.
  - rewrite Hy, app_length. cbn [length]. lia.
Qed.
Lemma lok_shared t lines : blank t -> ended lines -> (forall k, In k lines -> line_empty k = false -> prefix t k) -> lok (length t) lines.
Proof.
  intros Hb. induction lines as [|ln r IH]; intros He Hp; [exact I|]. cbn [ended lok] in *. destruct He as (E1 & E2 & E3).
  split; [destruct ln; [congruence|cbn [length]; lia]|]. split; [|apply IH; [exact E3|intros k Hk; apply Hp; right; exact Hk]].
  intros Hem. pose proof (Hp ln (or_introl eq_refl) Hem) as Hpre. split.
  - destruct Hpre as [y ->]. rewrite app_length. lia.
  - intros Hr. destruct (E2 Hr) as (x & b & -> & Hbr). apply prefix_break; assumption.
Qed.
Lemma blank_spacing t : blank t -> Forall spacing t.
Proof. intros H. eapply Forall_impl; [|exact H]. intros c [->| ->]; [left|right; left]; reflexivity. Qed.
Lemma trim_light t ind lines : blank t -> blank ind -> (forall k, In k lines -> line_empty k = false -> prefix t k) ->
  forall first, Forall light (trim_script (length t) ind first lines).
Proof.
  intros Ht Hi. induction lines as [|ln r IH]; intros Hp first; [constructor|]. cbn [trim_script]. apply Forall_app.
  split; [|apply IH; intros k Hk; apply Hp; right; exact Hk]. destruct (line_empty ln) eqn:E; [constructor; [exact I|constructor]|].
  destruct (Hp ln (or_introl eq_refl) E) as [y ->].
  constructor; [cbn [light]; rewrite firstn_app, Nat.sub_diag, firstn_all; cbn [firstn]; rewrite app_nil_r; apply blank_spacing, Ht|].
  constructor; [cbn [light]; destruct first; [constructor|apply blank_spacing, Hi]|]. constructor; [exact I|constructor].
Qed.

(** [traced r R rel]: the text of [r] came from [R], [rel] tells how, and the table follows [rel] *)
Definition traced (r : result) (R : text) (rel : nat -> nat -> Prop) : Prop :=
  aligns rel R (r_txt r) /\
  valid (r_offset r) (Z.of_nat (length (r_txt r))) (Z.of_nat (length R)) /\
  forall a b, rel a b -> look 0 (r_offset r) (Z.of_nat b) = (Z.of_nat a - Z.of_nat b)%Z.
Lemma traced_text t b : traced (Res t b []) t (fun x y => x = y /\ x < length t).
Proof.
  split; [apply aligns_id|]. split; [apply valid_nil; lia|]. intros a c [-> _]. cbn. lia.
Qed.
(** an edit whose table is known applied to a traced text *)
Lemma traced_edit r R rel s tab : traced r R rel -> before s = r_txt r -> Forall light s ->
  valid tab (Z.of_nat (length (after s))) (Z.of_nat (length (before s))) ->
  (forall a b, stems s a b -> look 0 tab (Z.of_nat b) = (Z.of_nat a - Z.of_nat b)%Z) ->
  traced (Res (after s) (r_browse r) (match r_offset r with [] => tab | _ => merge_offset (r_offset r) tab end)) R
    (fun a c => exists b, rel a b /\ stems s b c).
Proof.
  intros (T1 & T2 & T3) Hs Hl Hv Hk. rewrite Hs in Hv.
  assert (HM : exists m, m = match r_offset r with [] => tab | _ => merge_offset (r_offset r) tab end /\
             valid m (Z.of_nat (length (after s))) (Z.of_nat (length R)) /\
             forall x, (0 <= x)%Z -> look 0 m x = (look 0 (r_offset r) (x + look 0 tab x) + look 0 tab x)%Z).
  { eexists. split; [reflexivity|]. destruct (r_offset r) as [|e o] eqn:Eo.
    - destruct T2 as (_ & _ & _ & T2). cbn in T2. assert (E : Z.of_nat (length (r_txt r)) = Z.of_nat (length R)) by lia.
      rewrite E in Hv. split; [exact Hv|]. intros x _. cbn. lia.
    - apply (merge_valid _ _ _ _ _ T2 Hv). }
  destruct HM as (m & <- & M1 & M2). cbn [r_txt r_offset]. split; [|split; [exact M1|]]; cbn [r_txt r_offset].
  - eapply aligns_comp; [exact T1|]. rewrite <- Hs. apply stems_aligns, Hl.
  - intros a c (b & H1 & H2). rewrite M2 by lia. rewrite (Hk b c H2). replace (Z.of_nat c + (Z.of_nat b - Z.of_nat c))%Z with (Z.of_nat b) by lia.
    rewrite (T3 a b H1). lia.
Qed.
Lemma traced_trim on ind r R rel : blank ind -> traced r R rel -> exists rel', traced (trim_with_browse on ind r) R rel'.
Proof.
  intros Hi HT. unfold trim_with_browse. destruct (r_txt r) as [|x0 t0] eqn:Et; [eauto|]. destruct (negb on); [eauto|]. rewrite <- Et.
  destruct (keep_ended (length (r_txt r)) (r_txt r) (le_n _)) as [K1 K2]. set (lines := splitlines_keep (r_txt r)) in *.
  destruct (shared_spec lines) as [S1 S2].
  assert (Hlen : (match cutting lines with Some t => length t | None => 0 end) = length (shared lines)) by (unfold shared; destruct (cutting lines); reflexivity).
  rewrite Hlen. pose proof (lok_shared (shared lines) lines S1 K2 S2) as HL.
  set (tab := trim_offsets (Z.of_nat (length (shared lines))) (Z.of_nat (length (shared lines)) - Z.of_nat (length ind)) true 0 0 lines).
  pose proof (trim_end (length (shared lines)) ind lines HL true 0 0) as [E1 E2].
  pose proof (trim_before (length (shared lines)) ind lines true) as Hb.
  rewrite <- trim_after. eexists. apply (traced_edit r R rel _ tab HT).
  - rewrite Hb. exact K1.
  - apply trim_light; assumption.
  - split; [lia|]. split; [|split].
    + apply trim_steps; [exact HL|lia|discriminate].
    + exact E1.
    + rewrite Hb. cbn [Z.add] in E2. unfold tab. rewrite E2. lia.
  - intros a b Hab. pose proof (trim_look (length (shared lines)) ind lines HL true 0 0 a b Hab) as H. cbn [Z.add] in H. unfold tab. rewrite H. lia.
Qed.

(** ** Reduction of empty lines *)
Fixpoint reduce_script (prev : bool) (lines : list text) : list edit :=
  match lines with
  | [] => []
  | ln :: r => if line_empty ln then (if prev then Drop ln else Keep ln) :: reduce_script true r else Keep ln :: reduce_script false r
  end.
Lemma reduce_before lines : forall prev, before (reduce_script prev lines) = concat lines.
Proof.
  induction lines as [|ln r IH]; intros prev; [reflexivity|]. cbn [reduce_script concat].
  destruct (line_empty ln), prev; unfold before in *; cbn [map concat before1]; rewrite IH; reflexivity.
Qed.
Lemma reduce_after lines : forall prev, after (reduce_script prev lines) = concat (reduce_lines prev lines).
Proof.
  induction lines as [|ln r IH]; intros prev; [reflexivity|]. cbn [reduce_script reduce_lines concat].
  destruct (line_empty ln), prev; unfold after in *; cbn [map concat after1 app]; rewrite IH; reflexivity.
Qed.
Lemma line_empty_spacing ln : line_empty ln = true -> Forall spacing ln.
Proof.
  unfold line_empty. intros H. destruct (teqb_spec (skipn (span_len ps_SPACE ln) ln) [10%N]) as [E|E]; [|discriminate].
  rewrite <- (firstn_skipn (span_len ps_SPACE ln) ln), E. apply Forall_app. split; [|constructor; [right; right; reflexivity|constructor]].
  apply blank_spacing. apply (leading_blank ln).
Qed.
Lemma reduce_light lines : forall prev, Forall light (reduce_script prev lines).
Proof.
  induction lines as [|ln r IH]; intros prev; [constructor|]. cbn [reduce_script]. destruct (line_empty ln) eqn:E, prev; constructor; try apply IH; try exact I.
  apply line_empty_spacing, E.
Qed.
(** the accumulated table: its last entry is at [pos0] and has the value [total] *)
Definition acc_ok (acc : otab) (pos pos0 total : Z) : Prop :=
  steps 0 0 acc /\ Forall (fun e => fst e <= pos)%Z acc /\ (0 <= total)%Z /\
  ((acc = [] /\ pos0 = 0%Z /\ total = 0%Z) \/ exists a, acc = a ++ [(pos0, total)]).
Lemma steps_snoc a : forall p d q e, steps p d a -> (forall x, In x a -> fst x <= q)%Z -> (p <= q)%Z ->
  (snd (last a (p, d)) <= e)%Z -> steps p d (a ++ [(q, e)]).
Proof.
  intros p d q e H Hq Hp He. apply steps_app; [exact H|]. cbn [steps].
  assert (fst (last a (p, d)) <= q)%Z.
  { destruct a as [|f a]; [exact Hp|]. apply Hq. destruct (exists_last (l := f :: a) ltac:(discriminate)) as (a' & y & E). rewrite E, last_last. apply in_or_app. right. left. reflexivity. }
  repeat split; lia.
Qed.
Lemma acc_snoc acc pos pos0 total total' : acc_ok acc pos pos0 total -> (0 <= pos)%Z -> (total <= total')%Z -> acc_ok (acc ++ [(pos, total')]) pos pos total'.
Proof.
  intros (H1 & H2 & H3 & H4) Hp Ht. split; [|split; [|split]].
  - apply steps_snoc; [exact H1|apply Forall_forall, H2|exact Hp|]. destruct H4 as [(-> & _ & ->)|(a & ->)]; [exact Ht|]. rewrite last_last. exact Ht.
  - apply Forall_app. split; [exact H2|]. constructor; [cbn; lia|constructor].
  - lia.
  - right. exists acc. reflexivity.
Qed.
Lemma steps_unsnoc a q e : forall p d, steps p d (a ++ [(q, e)]) ->
  steps p d a /\ (snd (last a (p, d)) - 1 <= e /\ fst (last a (p, d)) + snd (last a (p, d)) <= q + e /\ fst (last a (p, d)) <= q)%Z.
Proof.
  induction a as [|[q' e'] a IH]; intros p d H; cbn [app steps last] in *; [destruct H as (A & B & C & _); cbn; repeat split; lia|].
  destruct H as (A & B & C & D). destruct (IH q' e' D) as (K1 & K2 & K3 & K4). split; [repeat split; assumption|].
  destruct a as [|f a]; [exact (conj K2 (conj K3 K4))|].
  assert (El : forall g b x y, last (g :: b) x = last (g :: b) y :> (Z * Z)).
  { clear. intros g b. revert g. induction b as [|h b IHb]; intros g x y; [reflexivity|]. exact (IHb h x y). }
  rewrite (El f a _ (q', e')). exact (conj K2 (conj K3 K4)).
Qed.
Lemma acc_put acc pos total total' : acc_ok acc pos pos total -> (0 < pos)%Z -> (total <= total')%Z ->
  acc_ok (put_last acc (pos, total')) pos pos total' /\ forall x, (x < pos)%Z -> look 0 (put_last acc (pos, total')) x = look 0 acc x.
Proof.
  intros (H1 & H2 & H3 & H4) Hp Ht. destruct H4 as [(_ & E & _)|(a & ->)]; [lia|]. unfold put_last. rewrite removelast_last.
  assert (Ha : steps 0 0 a /\ (snd (last a (0, 0)%Z) - 1 <= total)%Z /\ (fst (last a (0, 0)%Z) + snd (last a (0,0)%Z) <= pos + total)%Z /\ (fst (last a (0,0)%Z) <= pos)%Z).
  { apply steps_unsnoc, H1. }
  destruct Ha as (A1 & A2 & A3 & A4). split; [|intros x Hx; rewrite !look_stop by exact Hx; reflexivity].
  split; [|split; [|split]].
  - apply steps_app; [exact A1|]. cbn [steps]. repeat split; lia.
  - apply Forall_app in H2 as [H2 _]. apply Forall_app. split; [exact H2|]. constructor; [cbn; lia|constructor].
  - lia.
  - right. exists a. reflexivity.
Qed.
Lemma acc_look acc pos pos0 total y : acc_ok acc pos pos0 total -> (pos <= y)%Z -> look 0 acc y = total.
Proof.
  intros (_ & H2 & _ & H4) Hy. rewrite look_low by (eapply Forall_impl; [|exact H2]; cbn; intros; lia).
  destruct H4 as [(-> & _ & ->)|(a & ->)]; [reflexivity|]. rewrite last_last. reflexivity.
Qed.
Lemma acc_advance acc pos pos0 total y : acc_ok acc pos pos0 total -> (pos <= y)%Z -> acc_ok acc y pos0 total.
Proof.
  intros (H1 & H2 & H3 & H4) Hy. split; [exact H1|]. split; [eapply Forall_impl; [|exact H2]; cbn; intros; lia|]. auto.
Qed.
Lemma reduce_spec lines : Forall (fun l => l <> []) lines -> forall prev pos pos0 total acc, acc_ok acc pos pos0 total -> (0 <= pos)%Z -> (prev = true -> 0 < pos)%Z ->
  let tab := reduce_offsets prev pos pos0 total acc lines in
  let s := reduce_script prev lines in
  (forall x, (x < pos)%Z -> look 0 tab x = look 0 acc x) /\
  (forall a b, stems s a b -> look 0 tab (pos + Z.of_nat b) = (total + Z.of_nat a - Z.of_nat b)%Z) /\
  (exists p0 t0, acc_ok tab (pos + Z.of_nat (length (after s)))%Z p0 t0 /\ t0 = (total + Z.of_nat (length (before s)) - Z.of_nat (length (after s)))%Z).
Proof.
  induction 1 as [|ln r Hln _ IH]; intros prev pos pos0 total acc Hacc Hpos Hprev; cbn [reduce_offsets reduce_script].
  - split; [reflexivity|]. split; [intros a b H; inversion H|]. exists pos0, total. split; [|cbn; lia]. eapply acc_advance; [exact Hacc|cbn; lia].
  - assert (Hlen : 0 < length ln) by (destruct ln; [congruence|cbn [length]; lia]).
    assert (HKeep : forall p, (p = true -> 0 < pos + Z.of_nat (length ln))%Z ->
      let tab := reduce_offsets p (pos + Z.of_nat (length ln)) pos0 total acc r in
      let s := Keep ln :: reduce_script p r in
      (forall x, (x < pos)%Z -> look 0 tab x = look 0 acc x) /\
      (forall a b, stems s a b -> look 0 tab (pos + Z.of_nat b) = (total + Z.of_nat a - Z.of_nat b)%Z) /\
      (exists p0 t0, acc_ok tab (pos + Z.of_nat (length (after s)))%Z p0 t0 /\ t0 = (total + Z.of_nat (length (before s)) - Z.of_nat (length (after s)))%Z)).
    { intros p Hp. destruct (IH p (pos + Z.of_nat (length ln))%Z pos0 total acc) as (I1 & I2 & I3); [eapply acc_advance; [exact Hacc|lia]|lia|exact Hp|].
      split; [intros x Hx; apply I1; lia|]. split.
      - intros a b H. inversion H as [t r' k Hk|t r' a' b' Hr| |]; subst.
        + rewrite I1 by lia. rewrite (acc_look acc pos pos0 total) by (exact Hacc || lia). lia.
        + replace (pos + Z.of_nat (length ln + b'))%Z with (pos + Z.of_nat (length ln) + Z.of_nat b')%Z by lia. rewrite (I2 a' b' Hr). lia.
      - destruct I3 as (p0 & t0 & J1 & J2). exists p0, t0. unfold after, before in *. cbn [map concat after1 before1]. rewrite !app_length.
        split; [|lia]. replace (pos + Z.of_nat (length ln + length (concat (map after1 (reduce_script p r)))))%Z
          with (pos + Z.of_nat (length ln) + Z.of_nat (length (concat (map after1 (reduce_script p r)))))%Z by lia. exact J1. }
    destruct (line_empty ln) eqn:E; [|apply HKeep; discriminate].
    destruct prev; [|apply HKeep; lia]. specialize (Hprev eq_refl). clear HKeep.
    assert (HDrop : forall q acc', acc_ok acc' pos q (total + Z.of_nat (length ln)) -> (forall x, (x < pos)%Z -> look 0 acc' x = look 0 acc x) ->
      let tab := reduce_offsets true pos q (total + Z.of_nat (length ln)) acc' r in
      let s := Drop ln :: reduce_script true r in
      (forall x, (x < pos)%Z -> look 0 tab x = look 0 acc x) /\
      (forall a b, stems s a b -> look 0 tab (pos + Z.of_nat b) = (total + Z.of_nat a - Z.of_nat b)%Z) /\
      (exists p0 t0, acc_ok tab (pos + Z.of_nat (length (after s)))%Z p0 t0 /\ t0 = (total + Z.of_nat (length (before s)) - Z.of_nat (length (after s)))%Z)).
    { intros q acc' Ha Hlow. destruct (IH true pos q (total + Z.of_nat (length ln))%Z acc' Ha Hpos (fun _ => Hprev)) as (I1 & I2 & I3).
      split; [intros x Hx; rewrite I1 by exact Hx; apply Hlow, Hx|]. split.
      - intros a b H. inversion H as [| |t r' a' b' Hr|]; subst. rewrite (I2 a' b Hr). lia.
      - destruct I3 as (p0 & t0 & J1 & J2). exists p0, t0. unfold after, before in *. cbn [map concat after1 before1 app]. rewrite !app_length.
        split; [exact J1|lia]. }
    destruct (Z.eqb_spec pos pos0) as [<-|Hne].
    + destruct (acc_put acc pos total (total + Z.of_nat (length ln))%Z Hacc Hprev) as [P1 P2]; [lia|]. apply HDrop; assumption.
    + apply HDrop.
      * eapply acc_snoc; [exact Hacc|lia|lia].
      * intros x Hx. apply look_stop, Hx.
Qed.
Lemma ended_nonempty lines : ended lines -> Forall (fun l => l <> []) lines.
Proof. induction lines as [|l r IH]; intros H; [constructor|]. cbn [ended] in H. constructor; [apply H|apply IH, H]. Qed.
Lemma traced_reduce on r R rel : traced r R rel -> exists rel', traced (reduce_emptiness_browse on r) R rel'.
Proof.
  intros HT. unfold reduce_emptiness_browse. destruct (negb on); [eauto|].
  destruct (keep_ended (length (r_txt r)) (r_txt r) (le_n _)) as [K1 K2]. set (lines := splitlines_keep (r_txt r)) in *.
  destruct (reduce_spec lines (ended_nonempty _ K2) false 0 0 0 []) as (_ & I2 & p0 & t0 & I3 & I4).
  { split; [exact I|]. split; [constructor|]. split; [lia|]. left. auto. } { lia. } { discriminate. }
  rewrite <- reduce_after. eexists. eapply (traced_edit r R rel _ _ HT).
  - rewrite reduce_before. exact K1.
  - apply reduce_light.
  - pose proof (acc_look _ _ _ _ _ I3 (Z.le_refl _)) as Hlk. cbn [Z.add] in *. destruct I3 as (J1 & J2 & _). split; [lia|]. split; [exact J1|]. split; [exact J2|].
    rewrite Hlk, I4. lia.
  - intros a b Hab. specialize (I2 a b Hab). cbn [Z.add] in I2. rewrite I2. lia.
Qed.
(** ** Concatenation *)
Lemma traced_add r1 R1 rel1 r2 R2 rel2 : traced r1 R1 rel1 -> traced r2 R2 rel2 -> r_txt r2 <> [] ->
  traced (add_text r1 r2) (R1 ++ R2) (rel_app rel1 rel2 (length R1) (length (r_txt r1))).
Proof.
  intros (A1 & A2 & A3) (B1 & B2 & B3) Hne. unfold add_text. destruct (r_txt r2) as [|x t] eqn:E2; [contradiction|]. rewrite <- E2 in *. clear Hne.
  destruct (joined_valid _ _ _ _ _ _ A2 B2) as (J1 & J2 & J3 & J4).
  fold (base (r_offset r1)). change (r_offset r1 ++ map (fun '(p, v) => ((p + Z.of_nat (length (r_txt r1)))%Z, (v + base (r_offset r1))%Z)) (r_offset r2))
    with (joined (r_offset r1) (r_offset r2) (Z.of_nat (length (r_txt r1)))).
  split; [|split]; cbn [r_txt r_offset].
  - apply aligns_app; assumption.
  - rewrite !app_length, !Nat2Z.inj_add. exact J1.
  - intros a b [H|(a' & b' & -> & -> & H)].
    + destruct (al_same _ _ _ A1 a b H) as (c & _ & Hc). rewrite J2; [apply A3, H|]. assert (b < length (r_txt r1)) by (apply nth_error_Some; congruence). lia.
    + rewrite Nat2Z.inj_add. rewrite J3 by lia. rewrite (B3 a' b' H). lia.
Qed.
