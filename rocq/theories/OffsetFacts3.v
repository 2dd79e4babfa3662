(** Alignments: edits, trimming and reduction (proofs only). *)
From Coq Require Import List NArith ZArith Bool Lia ZifyBool ZifyNat ZifyN.
From Verif Require Import PyStr Ast Lex Parse Final PyStrFacts FinalSpec TrimSpec TrimFacts TrimFacts2 OffsetSpec OffsetFacts OffsetFacts2.
Import ListNotations.
Open Scope nat_scope.

(** ** Edits *)
Inductive edit := Keep (t : text) | Drop (t : text) | Add (t : text).
Definition before1 (e : edit) : text := match e with Keep t | Drop t => t | Add _ => [] end.
Definition after1 (e : edit) : text := match e with Keep t | Add t => t | Drop _ => [] end.
Definition before (s : list edit) : text := concat (map before1 s).
Definition after (s : list edit) : text := concat (map after1 s).
Inductive stems : list edit -> nat -> nat -> Prop :=
| stem_here t r k : k < length t -> stems (Keep t :: r) k k
| stem_keep t r a b : stems r a b -> stems (Keep t :: r) (length t + a) (length t + b)
| stem_drop t r a b : stems r a b -> stems (Drop t :: r) (length t + a) b
| stem_add t r a b : stems r a b -> stems (Add t :: r) a (length t + b).
Definition light (e : edit) : Prop := match e with Keep _ => True | Drop t | Add t => Forall spacing t end.

Lemma nth_app_l {A} (u v : list A) k : k < length u -> nth_error (u ++ v) k = nth_error u k.
Proof. intros H. apply nth_error_app1, H. Qed.
Lemma nth_app_r {A} (u v : list A) k : nth_error (u ++ v) (length u + k) = nth_error v k.
Proof. rewrite nth_error_app2 by lia. f_equal. lia. Qed.
Lemma stems_same s a b : stems s a b -> exists c, nth_error (before s) a = Some c /\ nth_error (after s) b = Some c.
Proof.
  induction 1 as [t r k Hk|t r a b _ IH|t r a b _ IH|t r a b _ IH]; unfold before, after; cbn [map concat before1 after1 app].
  - rewrite !nth_app_l by exact Hk. destruct (nth_error t k) eqn:E; [eauto|]. apply nth_error_None in E. lia.
  - rewrite !nth_app_r. exact IH.
  - rewrite nth_app_r. exact IH.
  - rewrite nth_app_r. exact IH.
Qed.
Lemma stems_order s : forall a b a' b', stems s a b -> stems s a' b' -> (a < a' <-> b < b').
Proof.
  induction s as [|e r IH]; intros a b a' b' H H'; [inversion H|].
  inversion H; subst; inversion H'; subst; try (match goal with H1 : stems r ?x ?y, H2 : stems r ?z ?w |- _ => specialize (IH x y z w H1 H2) end); try lia.
Qed.
Lemma stems_aligns s : Forall light s -> aligns (stems s) (before s) (after s).
Proof.
  intros Hl. constructor; [apply stems_same|apply stems_order| |].
  - induction Hl as [|e r He _ IH]; intros a c H Hn; [destruct a; discriminate H|]. unfold before in H. cbn [map concat] in H.
    destruct (Nat.lt_ge_cases a (length (before1 e))) as [Ha|Ha].
    + rewrite nth_app_l in H by exact Ha. destruct e as [t|t|t]; cbn [before1] in *.
      * exists a. constructor. exact Ha.
      * apply nth_error_In in H. cbn [light] in He. rewrite Forall_forall in He. elim Hn. apply He, H.
      * cbn [length] in Ha. lia.
    + replace a with (length (before1 e) + (a - length (before1 e))) in * by lia. rewrite nth_app_r in H.
      destruct (IH _ _ H Hn) as [b Hb]. destruct e as [t|t|t]; cbn [before1 length] in *.
      * eexists. apply stem_keep. exact Hb.
      * eexists. apply stem_drop. exact Hb.
      * eexists. apply stem_add. exact Hb.
  - induction Hl as [|e r He _ IH]; intros a c H Hn; [destruct a; discriminate H|]. unfold after in H. cbn [map concat] in H.
    destruct (Nat.lt_ge_cases a (length (after1 e))) as [Ha|Ha].
    + rewrite nth_app_l in H by exact Ha. destruct e as [t|t|t]; cbn [after1] in *.
      * exists a. constructor. exact Ha.
      * cbn [length] in Ha. lia.
      * apply nth_error_In in H. cbn [light] in He. rewrite Forall_forall in He. elim Hn. apply He, H.
    + replace a with (length (after1 e) + (a - length (after1 e))) in * by lia. rewrite nth_app_r in H.
      destruct (IH _ _ H Hn) as [b Hb]. destruct e as [t|t|t]; cbn [after1 length] in *.
      * eexists. apply stem_keep. exact Hb.
      * eexists. apply stem_drop. exact Hb.
      * eexists. apply stem_add. exact Hb.
Qed.
(** ** Composition and concatenation of alignments *)
Lemma aligns_id t : aligns (fun a b => a = b /\ a < length t) t t.
Proof.
  constructor.
  - intros a b [-> H]. destruct (nth_error t b) eqn:E; [eauto|]. apply nth_error_None in E. lia.
  - intros a b a' b' [-> _] [-> _]. reflexivity.
  - intros a c H _. exists a. split; [reflexivity|]. apply nth_error_Some. congruence.
  - intros a c H _. exists a. split; [reflexivity|]. apply nth_error_Some. congruence.
Qed.
Lemma aligns_comp r1 r2 t u v : aligns r1 t u -> aligns r2 u v -> aligns (fun a c => exists b, r1 a b /\ r2 b c) t v.
Proof.
  intros [A1 A2 A3 A4] [B1 B2 B3 B4]. constructor.
  - intros a c (b & H1 & H2). destruct (A1 a b H1) as (x & X1 & X2). destruct (B1 b c H2) as (y & Y1 & Y2). exists x. split; [exact X1|congruence].
  - intros a c a' c' (b & H1 & H2) (b' & H1' & H2'). rewrite (A2 a b a' b' H1 H1'). apply B2; assumption.
  - intros a x H Hn. destruct (A3 a x H Hn) as [b Hb]. destruct (A1 a b Hb) as (y & Y1 & Y2).
    destruct (B3 b y Y2) as [c Hc]; [congruence|]. eauto.
  - intros c x H Hn. destruct (B4 c x H Hn) as [b Hb]. destruct (B1 b c Hb) as (y & Y1 & Y2).
    destruct (A4 b y Y1) as [a Ha]; [congruence|]. eauto.
Qed.
Definition rel_app (r1 r2 : nat -> nat -> Prop) (n l : nat) (a b : nat) : Prop :=
  r1 a b \/ exists a' b', a = n + a' /\ b = l + b' /\ r2 a' b'.
Lemma aligns_app r1 r2 t u t' u' : aligns r1 t u -> aligns r2 t' u' ->
  aligns (rel_app r1 r2 (length t) (length u)) (t ++ t') (u ++ u').
Proof.
  intros [A1 A2 A3 A4] [B1 B2 B3 B4].
  assert (Hr : forall a b, r1 a b -> a < length t /\ b < length u).
  { intros a b H. destruct (A1 a b H) as (c & H1 & H2). split; apply nth_error_Some; congruence. }
  constructor.
  - intros a b [H|(a' & b' & -> & -> & H)].
    + destruct (Hr a b H). rewrite !nth_app_l by assumption. auto.
    + rewrite !nth_app_r. auto.
  - intros a b a' b' [H|(x & y & -> & -> & H)] [H'|(x' & y' & -> & -> & H')].
    + auto.
    + destruct (Hr a b H). lia.
    + destruct (Hr a' b' H'). lia.
    + specialize (B2 _ _ _ _ H H'). lia.
  - intros a c H Hn. destruct (Nat.lt_ge_cases a (length t)) as [Ha|Ha].
    + rewrite nth_app_l in H by exact Ha. destruct (A3 a c H Hn) as [b Hb]. exists b. left. exact Hb.
    + replace a with (length t + (a - length t)) in * by lia. rewrite nth_app_r in H. destruct (B3 _ _ H Hn) as [b Hb].
      exists (length u + b). right. eauto.
  - intros a c H Hn. destruct (Nat.lt_ge_cases a (length u)) as [Ha|Ha].
    + rewrite nth_app_l in H by exact Ha. destruct (A4 a c H Hn) as [b Hb]. exists b. left. exact Hb.
    + replace a with (length u + (a - length u)) in * by lia. rewrite nth_app_r in H. destruct (B4 _ _ H Hn) as [b Hb].
      exists (length t + b). right. eauto.
Qed.

(** ** Trimming *)
Fixpoint trim_script (c : nat) (ind : text) (first : bool) (lines : list text) : list edit :=
  match lines with
  | [] => []
  | ln :: r =>
      (if line_empty ln then [Keep ln]
       else [Drop (firstn c ln); Add (if first then [] else ind); Keep (skipn c ln)]) ++ trim_script c ind false r
  end.
Lemma before_app a b : before (a ++ b) = before a ++ before b.
Proof. unfold before. rewrite map_app, concat_app. reflexivity. Qed.
Lemma after_app a b : after (a ++ b) = after a ++ after b.
Proof. unfold after. rewrite map_app, concat_app. reflexivity. Qed.
Lemma trim_before c ind lines : forall first, before (trim_script c ind first lines) = concat lines.
Proof.
  induction lines as [|ln r IH]; intros first; [reflexivity|]. cbn [trim_script concat]. rewrite before_app, IH. f_equal.
  destruct (line_empty ln); unfold before; cbn [map concat before1 app]; rewrite app_nil_r; [reflexivity|]. apply firstn_skipn.
Qed.
Lemma trim_after c ind lines : forall first, after (trim_script c ind first lines) = concat (trim_lines c ind first lines).
Proof.
  induction lines as [|ln r IH]; intros first; [reflexivity|]. cbn [trim_script trim_lines concat]. rewrite after_app, IH. f_equal.
  destruct (line_empty ln); unfold after; cbn [map concat after1 app]; rewrite app_nil_r; reflexivity.
Qed.
(** the lines to be trimmed are at least as long as the shared indentation *)
Fixpoint lok (c : nat) (lines : list text) : Prop :=
  match lines with
  | [] => True
  | ln :: r => 0 < length ln /\ (line_empty ln = false -> c <= length ln /\ (r <> [] -> c < length ln)) /\ lok c r
  end.
Lemma add_steps_look k : forall pos total y d, (pos + Z.of_nat k - 1 <= y)%Z -> d = total -> look d (add_steps k pos total) y = (total - Z.of_nat k)%Z.
Proof.
  induction k as [|k IH]; intros pos total y d H ->; cbn [add_steps look]; [lia|].
  destruct (Z.leb_spec pos y); [|lia]. rewrite IH; lia.
Qed.
Lemma add_steps_range k : forall pos total, Forall (fun e => pos <= fst e < pos + Z.of_nat k)%Z (add_steps k pos total).
Proof.
  induction k as [|k IH]; intros pos total; cbn [add_steps]; constructor; [cbn; lia|].
  eapply Forall_impl; [|apply IH]. cbn. intros; lia.
Qed.
Lemma trim_offsets_ge c d lines : lok c lines -> (d <= Z.of_nat c)%Z -> forall first pos total,
  Forall (fun e => pos <= fst e)%Z (trim_offsets (Z.of_nat c) d first pos total lines).
Proof.
  intros Hl Hd. induction lines as [|ln r IH]; intros first pos total; [constructor|]. cbn [lok] in Hl. destruct Hl as (L1 & L2 & L3). cbn [trim_offsets].
  destruct (line_empty ln) eqn:E; [eapply Forall_impl; [|apply IH, L3]; cbn; intros; lia|]. destruct (L2 eq_refl) as [L4 _].
  set (delta := if first then Z.of_nat c else d). assert (Hdl : (delta <= Z.of_nat c)%Z) by (unfold delta; destruct first; lia).
  destruct (Z.ltb_spec 0 delta).
  - constructor; [cbn; lia|]. eapply Forall_impl; [|apply IH, L3]. cbn. intros; lia.
  - apply Forall_app. split; [eapply Forall_impl; [|apply add_steps_range]; cbn; intros; lia|].
    eapply Forall_impl; [|apply IH, L3]. cbn. intros; lia.
Qed.
Section Trim.
Variables (c : nat) (ind : text).
Notation d := (Z.of_nat c - Z.of_nat (length ind))%Z.
Notation offs := (trim_offsets (Z.of_nat c) d).
Lemma trim_look lines : lok c lines -> forall first pos total a b, stems (trim_script c ind first lines) a b ->
  look total (offs first pos total lines) (pos + Z.of_nat b) = (total + Z.of_nat a - Z.of_nat b)%Z.
Proof.
  induction lines as [|ln r IH]; intros Hl first pos total a b H; [inversion H|].
  cbn [lok] in Hl. destruct Hl as (L1 & L2 & L3). specialize (IH L3).
  cbn [trim_script trim_offsets] in *. destruct (line_empty ln) eqn:E; cbn [app] in H.
  - inversion H as [t r' k Hk|t r' a' b' Hr| |]; subst.
    + rewrite look_high; [lia|]. eapply Forall_impl; [|apply trim_offsets_ge; [exact L3|lia]]. cbn. intros; lia.
    + replace (pos + Z.of_nat (length ln + b'))%Z with (pos + Z.of_nat (length ln) + Z.of_nat b')%Z by lia. rewrite (IH false _ _ a' b' Hr). lia.
  - destruct (L2 eq_refl) as [L4 _].
    assert (Hc : length (firstn c ln) = c) by (apply firstn_length_le, L4).
    assert (Hk : length (skipn c ln) = length ln - c) by apply skipn_length.
    set (i := if first then [] else ind) in *. set (delta := if first then Z.of_nat c else d).
    assert (Hdi : delta = (Z.of_nat c - Z.of_nat (length i))%Z) by (unfold delta, i; destruct first; cbn [length]; lia).
    assert (HS : (exists k, k < length ln - c /\ a = c + k /\ b = length i + k) \/
                 (exists a' b', stems (trim_script c ind false r) a' b' /\ a = length ln + a' /\ b = length i + (length ln - c) + b')).
    { inversion H as [| |t r' a1 b1 H1|]; subst. inversion H1 as [| | |t' r'' a2 b2 H2]; subst. inversion H2 as [t r' k Hk'|t r' a3 b3 H3| |]; subst.
      - left. rewrite Hc. eexists. split; [|split; reflexivity]. lia.
      - right. rewrite Hc, Hk. exists a3, b3. split; [exact H3|]. split; lia. }
    clear H. destruct (Z.ltb_spec 0 delta) as [Hd|Hd].
    + cbn [look]. destruct (Z.leb_spec pos (pos + Z.of_nat b)); [|lia]. destruct HS as [(k & K1 & -> & ->)|(a' & b' & K1 & -> & ->)].
      * rewrite look_high; [lia|]. eapply Forall_impl; [|apply trim_offsets_ge; [exact L3|lia]]. cbn. intros; lia.
      * replace (pos + Z.of_nat (length i + (length ln - c) + b'))%Z with (pos - delta + Z.of_nat (length ln) + Z.of_nat b')%Z by lia.
        rewrite (IH false _ _ a' b' K1). lia.
    + rewrite look_app; [|eapply Forall_impl; [|apply add_steps_range]; cbn; destruct HS as [(k & K1 & -> & ->)|(a' & b' & K1 & -> & ->)]; intros; lia].
      rewrite add_steps_look by (try reflexivity; destruct HS as [(k & K1 & -> & ->)|(a' & b' & K1 & -> & ->)]; lia).
      destruct HS as [(k & K1 & -> & ->)|(a' & b' & K1 & -> & ->)].
      * rewrite look_high; [lia|]. eapply Forall_impl; [|apply trim_offsets_ge; [exact L3|lia]]. cbn. intros; lia.
      * replace (pos + Z.of_nat (length i + (length ln - c) + b'))%Z with (pos + Z.of_nat (Z.to_nat (- delta)) + Z.of_nat (length ln) + Z.of_nat b')%Z by lia.
        rewrite (IH false _ _ a' b' K1). lia.
Qed.
Lemma add_steps_steps k T : forall pos total q, (q < pos)%Z -> steps (if (0 <? Z.of_nat k)%Z then pos + Z.of_nat k - 1 else q)%Z (total - Z.of_nat k) T ->
  steps q total (add_steps k pos total ++ T).
Proof.
  induction k as [|k IH]; intros pos total q Hq H; cbn [add_steps app].
  - cbn in H. replace (total - 0)%Z with total in H by lia. exact H.
  - cbn [steps]. repeat split; try lia. apply IH; [lia|].
    replace (if (0 <? Z.of_nat k)%Z then (pos + 1 + Z.of_nat k - 1)%Z else pos) with (pos + Z.of_nat (S k) - 1)%Z by (destruct (Z.ltb_spec 0 (Z.of_nat k)); lia).
    replace (total - 1 - Z.of_nat k)%Z with (total - Z.of_nat (S k))%Z by lia.
    replace (0 <? Z.of_nat (S k))%Z with true in H by lia. exact H.
Qed.
Lemma trim_steps lines : lok c lines -> forall first pos total q, (q <= pos)%Z -> (first = false -> lines <> [] -> q < pos)%Z ->
  steps q total (offs first pos total lines).
Proof.
  induction lines as [|ln r IH]; intros Hl first pos total q Hq Hf; [exact I|].
  cbn [lok] in Hl. destruct Hl as (L1 & L2 & L3). cbn [trim_offsets]. destruct (line_empty ln) eqn:E.
  - apply IH; [exact L3|lia|intros _ _; lia].
  - destruct (L2 eq_refl) as [L4 L5]. set (delta := if first then Z.of_nat c else d).
    assert (Hdl : (delta <= Z.of_nat c)%Z) by (unfold delta; destruct first; lia).
    destruct (Z.ltb_spec 0 delta) as [Hd|Hd].
    + cbn [steps]. repeat split; try lia. apply IH; [exact L3|lia|]. intros _ Hr. specialize (L5 Hr). lia.
    + destruct (Z.to_nat (- delta)) as [|k] eqn:Ek.
      * cbn [add_steps app]. replace (total - Z.of_nat 0)%Z with total by lia. apply IH; [exact L3|lia|]. intros _ Hr. lia.
      * assert (Hff : first = false). { destruct first; [unfold delta in *; lia|reflexivity]. }
        apply add_steps_steps; [apply (Hf Hff); discriminate|]. replace (0 <? Z.of_nat (S k))%Z with true by lia.
        apply IH; [exact L3|lia|]. intros; lia.
Qed.
Lemma trim_end lines : lok c lines -> forall first pos total,
  let l := Z.of_nat (length (after (trim_script c ind first lines))) in
  Forall (fun e => fst e <= pos + l)%Z (offs first pos total lines) /\
  look total (offs first pos total lines) (pos + l) = (total + Z.of_nat (length (concat lines)) - l)%Z.
Proof.
  induction lines as [|ln r IH]; intros Hl first pos total; [cbn; split; [constructor|lia]|].
  cbn [lok] in Hl. destruct Hl as (L1 & L2 & L3). specialize (IH L3). cbn [trim_script trim_offsets concat]. rewrite after_app, !app_length.
  destruct (line_empty ln) eqn:E.
  - unfold after at 1. cbn [map concat after1]. rewrite app_nil_r. destruct (IH false (pos + Z.of_nat (length ln))%Z total) as [I1 I2].
    unfold after at 2. cbn [map concat after1]. rewrite app_nil_r.
    replace (pos + Z.of_nat (length ln + length (after (trim_script c ind false r))))%Z
      with (pos + Z.of_nat (length ln) + Z.of_nat (length (after (trim_script c ind false r))))%Z by lia.
    split; [exact I1|]. etransitivity; [exact I2|]. unfold after. cbn [map concat after1]. rewrite app_nil_r. lia.
  - destruct (L2 eq_refl) as [L4 _].
    assert (Hk : length (skipn c ln) = length ln - c) by apply skipn_length.
    set (i := if first then [] else ind) in *. set (delta := if first then Z.of_nat c else d).
    assert (Hdi : delta = (Z.of_nat c - Z.of_nat (length i))%Z) by (unfold delta, i; destruct first; cbn [length]; lia).
    assert (Hlen : length (after [Drop (firstn c ln); Add i; Keep (skipn c ln)]) = length i + (length ln - c)).
    { unfold after. cbn [map concat after1 app]. rewrite app_nil_r, app_length, Hk. reflexivity. }
    rewrite Hlen. destruct (Z.ltb_spec 0 delta) as [Hd|Hd].
    + destruct (IH false (pos - delta + Z.of_nat (length ln))%Z (total + delta)%Z) as [I1 I2].
      replace (pos + Z.of_nat (length i + (length ln - c) + length (after (trim_script c ind false r))))%Z
        with (pos - delta + Z.of_nat (length ln) + Z.of_nat (length (after (trim_script c ind false r))))%Z by lia.
      split; [constructor; [cbn; lia|exact I1]|]. cbn [look]. destruct (Z.leb_spec pos (pos - delta + Z.of_nat (length ln) + Z.of_nat (length (after (trim_script c ind false r))))); [|lia].
      rewrite I2. lia.
    + destruct (IH false (pos + Z.of_nat (Z.to_nat (- delta)) + Z.of_nat (length ln))%Z (total - Z.of_nat (Z.to_nat (- delta)))%Z) as [I1 I2].
      replace (pos + Z.of_nat (length i + (length ln - c) + length (after (trim_script c ind false r))))%Z
        with (pos + Z.of_nat (Z.to_nat (- delta)) + Z.of_nat (length ln) + Z.of_nat (length (after (trim_script c ind false r))))%Z by lia.
      assert (HA : Forall (fun e => fst e <= pos + Z.of_nat (Z.to_nat (- delta)) + Z.of_nat (length ln) + Z.of_nat (length (after (trim_script c ind false r))))%Z
                    (add_steps (Z.to_nat (- delta)) pos total)).
      { eapply Forall_impl; [|apply add_steps_range]. cbn. intros; lia. }
      split; [apply Forall_app; split; [exact HA|exact I1]|]. rewrite look_app by exact HA. rewrite add_steps_look by (try reflexivity; lia).
      rewrite I2. lia.
Qed.
End Trim.
