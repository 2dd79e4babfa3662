(** From the generated text to its origin (proofs only). *)
From Coq Require Import List NArith ZArith Bool Lia ZifyBool ZifyNat ZifyN.
From Verif Require Import PyStr Ast Lex Parse Final Browse PyStrFacts FinalSpec TrimSpec TrimFacts OffsetSpec BrowseSpec OffsetFacts OffsetFacts2 OffsetFacts3 OffsetFacts4.
Import ListNotations.
Open Scope nat_scope.

Lemma raw_app a b : raw_text (a ++ b) = raw_text a ++ raw_text b.
Proof. unfold raw_text. rewrite map_app, concat_app. reflexivity. Qed.
Lemma origins_app a : forall start b, origins start (a ++ b) = origins start a ++ origins (start + Z.of_nat (length (raw_text a))) b.
Proof.
  induction a as [|[t o] a IH]; intros start b; cbn [app origins].
  - f_equal. cbn. lia.
  - rewrite IH, app_assoc. f_equal. f_equal. unfold raw_text. cbn [map concat fst]. rewrite app_length. lia.
Qed.
Lemma origins_shift ps : forall s d, map (fun '(p, f, q) => (p + d, f, q)%Z) (origins s ps) = origins (s + d) ps.
Proof.
  induction ps as [|[t o] ps IH]; intros s d; cbn [origins]; [reflexivity|]. rewrite map_app, IH. f_equal.
  - rewrite map_map. apply map_ext. intros [[p f] q]. f_equal. f_equal. lia.
  - f_equal. lia.
Qed.
Lemma built_traced r ps : built r ps -> (exists rel, traced r (raw_text ps) rel) /\ r_browse r = origins 0 ps.
Proof.
  induction 1 as [t b|r1 p1 r2 p2 _ [[rel1 IH1] B1] _ [[rel2 IH2] B2] Hne|r1 p1 r2 p2 _ IH1 _ _ He|on ind r p _ [[rel IH] B] Hi|on r p _ [[rel IH] B]].
  - split.
    + exists (fun x y => x = y /\ x < length t). unfold raw_text. cbn [map concat fst]. rewrite app_nil_r. apply traced_text.
    + cbn [origins r_browse]. rewrite app_nil_r. rewrite <- (map_id b) at 1. apply map_ext. intros [[p f] q]. f_equal.
  - split.
    + rewrite raw_app. eexists. apply traced_add; eassumption.
    + rewrite origins_app. cbn [Z.add]. unfold add_text. destruct (r_txt r2) eqn:E; [contradiction|]. cbn [r_browse]. rewrite B1, B2. f_equal.
      fold (base (r_offset r1)). rewrite origins_shift. f_equal.
      destruct IH1 as (_ & (_ & _ & V1 & V2) & _). rewrite (base_look _ _ V1) in V2. lia.
  - unfold add_text. rewrite He. exact IH1.
  - split; [eapply traced_trim; eassumption|]. unfold trim_with_browse. destruct (r_txt r); [exact B|]. destruct (negb on); exact B.
  - split; [eapply traced_reduce; eassumption|]. unfold reduce_emptiness_browse. destruct (negb on); exact B.
Qed.
Lemma delta_at_look tab pos x : sorted pos tab -> delta_at tab x = look 0 tab x.
Proof. intros H. unfold delta_at. rewrite (bisect_count tab pos x H), look_count. reflexivity. Qed.

Lemma offsets_lead_back r ps : built r ps ->
  r_browse r = origins 0 ps /\
  exists rel, aligns rel (raw_text ps) (r_txt r) /\
    forall a b, rel a b -> in_force (r_offset r) (Z.of_nat b) (Z.of_nat a - Z.of_nat b) /\
      (Z.of_nat b + delta_at (r_offset r) (Z.of_nat b))%Z = Z.of_nat a.
Proof.
  intros H. destruct (built_traced r ps H) as [[rel (T1 & (_ & V & _) & T3)] B]. split; [exact B|]. exists rel. split; [exact T1|].
  intros a b Hab. pose proof (steps_sorted _ _ _ V) as Hs. rewrite (delta_at_look _ _ _ Hs), (T3 a b Hab). split; [|lia].
  rewrite <- (T3 a b Hab). eapply look_in_force, Hs.
Qed.
(** ** Jumps *)
Lemma within_ge b : forall lo hi, sorted_within lo hi b -> Forall (fun e => lo <= mark_pos e < hi)%Z b.
Proof.
  induction b as [|[[p f] q] b IH]; intros lo hi H; [constructor|]. cbn [sorted_within] in H. destruct H as [H1 H2].
  constructor; [exact H1|]. eapply Forall_impl; [|apply (IH p hi H2)]. cbn. intros; lia.
Qed.
Definition entry (e : Z * nat * Z) : Z * Z := (mark_pos e, 0%Z).
Lemma origins_range ps : Forall proper ps -> forall s, Forall (fun e => s <= mark_pos e < s + Z.of_nat (length (raw_text ps)))%Z (origins s ps).
Proof.
  induction 1 as [|[t b] ps Hp _ IH]; intros s; cbn [origins]; [constructor|]. unfold raw_text in *. cbn [map concat fst]. rewrite app_length. apply Forall_app. split.
  - apply Forall_map. eapply Forall_impl; [|apply (within_ge b _ _ Hp)]. intros [[p f] q]. cbn. lia.
  - eapply Forall_impl; [|apply IH]. cbn. intros; lia.
Qed.
Lemma sorted_app a : forall lo b, sorted lo a -> Forall (fun e => forall x, In x b -> fst e <= fst x)%Z a -> (forall x, In x b -> lo <= fst x)%Z ->
  (match b with [] => True | (p, _) :: _ => sorted p b end) -> sorted lo (a ++ b).
Proof.
  induction a as [|[p d] a IH]; intros lo b H1 H2 H3 H4; cbn [app].
  - destruct b as [|[q e] b]; [exact I|]. cbn [sorted] in *. split; [apply (H3 (q, e)); left; reflexivity|apply H4].
  - cbn [sorted] in *. inversion H2 as [|? ? K1 K2]; subst. split; [apply H1|]. apply IH; [apply H1|exact K2|exact K1|exact H4].
Qed.
Lemma sorted_weaken tab lo lo' : sorted lo tab -> (forall x, In x tab -> lo' <= fst x)%Z -> sorted lo' tab.
Proof. destruct tab as [|[p d] r]; [auto|]. cbn [sorted]. intros [_ H] H'. split; [apply (H' (p, d)); left; reflexivity|exact H]. Qed.
Lemma origins_sorted ps : Forall proper ps -> forall s, sorted s (map entry (origins s ps)).
Proof.
  induction 1 as [|[t b] ps Hp Hps IH]; intros s; cbn [origins]; [exact I|]. rewrite map_app, map_map.
  assert (Hhi : forall x, In x (map entry (origins (s + Z.of_nat (length t)) ps)) -> (s + Z.of_nat (length t) <= fst x)%Z).
  { intros x Hx. apply in_map_iff in Hx as (e & <- & He). pose proof (origins_range ps Hps (s + Z.of_nat (length t))%Z) as H. rewrite Forall_forall in H. apply H in He. cbn. lia. }
  apply sorted_app.
  - unfold proper in Hp. cbn [fst snd] in Hp. clear -Hp. replace s with (s + 0)%Z at 1 by lia. revert Hp. generalize 0%Z as lo. induction b as [|[[p f] q] b IHb]; intros lo Hp; [exact I|].
    cbn [map sorted entry mark_pos fst sorted_within] in *. split; [lia|]. apply IHb, Hp.
  - apply Forall_map. pose proof (within_ge b _ _ Hp) as Hw. eapply Forall_impl; [|exact Hw]. intros [[p f] q] Hr x Hx. cbn in Hr |- *. apply Hhi in Hx. lia.
  - intros x Hx. apply Hhi in Hx. lia.
  - specialize (IH (s + Z.of_nat (length t))%Z). destruct (map entry (origins (s + Z.of_nat (length t)) ps)) as [|[p d] r] eqn:E; [exact I|].
    cbn [sorted] in *. split; [lia|apply IH].
Qed.
Lemma count_app a b x : Forall (fun e => fst e <= x)%Z a -> Forall (fun e => x < fst e)%Z b -> count (a ++ b) x = length a.
Proof.
  induction 1 as [|[p d] a Hp _ IH]; intros Hb; cbn [app count length].
  - destruct Hb as [|[p d] b Hp _]; [reflexivity|]. cbn [count fst] in *. destruct (Z.leb_spec p x); [lia|reflexivity].
  - cbn [fst] in Hp. destruct (Z.leb_spec p x); [|lia]. rewrite IH by exact Hb. reflexivity.
Qed.
(** the jump from a character that came from position [k] of a piece with one origin *)
Lemma jump_exact ps1 t f q ps2 offset pos k : Forall proper ps1 -> Forall proper ps2 -> k < length t -> (0 < q)%Z ->
  origins 0 ps1 <> [] ->
  (pos + delta_at offset pos = Z.of_nat (length (raw_text ps1)) + Z.of_nat k)%Z ->
  jumps (origins 0 (ps1 ++ (t, [(0%Z, f, q)]) :: ps2)) offset pos = [(f, (q + Z.of_nat k)%Z)].
Proof.
  intros H1 H2 Hk Hq Hne Hpos. unfold jumps. rewrite Hpos. set (n := Z.of_nat (length (raw_text ps1))).
  assert (Hp : Forall proper (ps1 ++ (t, [(0%Z, f, q)]) :: ps2)).
  { apply Forall_app. split; [exact H1|]. constructor; [|exact H2]. cbn. split; [lia|exact I]. }
  rewrite (bisect_count _ 0) by apply (origins_sorted _ Hp 0).
  assert (EO : origins 0 (ps1 ++ (t, [(0%Z, f, q)]) :: ps2) = (origins 0 ps1 ++ [(n, f, q)]) ++ origins (n + Z.of_nat (length t)) ps2).
  { rewrite origins_app. cbn [Z.add origins map app]. fold n. rewrite <- app_assoc. cbn [app]. do 3 f_equal. f_equal. lia. }
  rewrite EO. change (fun e : Z * nat * Z => (mark_pos e, 0%Z)) with entry. rewrite map_app, count_app.
  - rewrite map_length, app_length. cbn [length]. rewrite Nat.add_comm. cbn [Nat.add].
    rewrite <- app_assoc. rewrite app_nth2 by lia. rewrite Nat.sub_diag. cbn [app nth].
    rewrite firstn_app, Nat.sub_diag, firstn_all. cbn [firstn]. rewrite app_nil_r.
    destruct (exists_last Hne) as (o & [[p' f'] q'] & Eo). rewrite Eo, rev_app_distr. cbn [rev app].
    assert (Hlt : (p' < n)%Z).
    { pose proof (origins_range ps1 H1 0) as Hr. rewrite Eo in Hr. apply Forall_app in Hr as [_ Hr]. inversion Hr as [|? ? Hr' _]; subst. cbn in Hr'. fold n in Hr'. lia. }
    replace (p' =? n)%Z with false by lia. cbn [negb andb]. replace (0 <? q)%Z with true by lia. cbn [earlier].
    replace (p' =? n)%Z with false by lia. f_equal. f_equal. rewrite Z.abs_eq; lia.
  - rewrite map_app. apply Forall_app. split.
    + apply Forall_map. eapply Forall_impl; [|apply (origins_range ps1 H1 0)]. cbn. fold n. intros; lia.
    + constructor; [cbn; lia|constructor].
  - apply Forall_map. eapply Forall_impl; [|apply (origins_range ps2 H2)]. cbn. intros; lia.
Qed.
Lemma jump_from_output r ps1 t f q ps2 : built r (ps1 ++ (t, [(0%Z, f, q)]) :: ps2) ->
  Forall proper ps1 -> Forall proper ps2 -> (0 < q)%Z -> origins 0 ps1 <> [] ->
  exists rel, aligns rel (raw_text (ps1 ++ (t, [(0%Z, f, q)]) :: ps2)) (r_txt r) /\
    forall k b, k < length t -> rel (length (raw_text ps1) + k) b ->
      jumps (r_browse r) (r_offset r) (Z.of_nat b) = [(f, (q + Z.of_nat k)%Z)].
Proof.
  intros Hb H1 H2 Hq Hne. destruct (offsets_lead_back r _ Hb) as (B & rel & A & T). exists rel. split; [exact A|].
  intros k b Hk Hab. rewrite B. apply jump_exact; try assumption. destruct (T _ _ Hab) as [_ E]. rewrite E. lia.
Qed.

(** the jumps from a character of a piece with several origins *)
Definition all_at (ms : list (nat * Z)) (p : Z) : btab := map (fun m => (p, fst m, snd m)) ms.
Lemma earlier_all n ms : forall pre done, (forall e, In e pre -> mark_pos e < n)%Z ->
  earlier n (rev (pre ++ all_at ms n)) done = map (fun m => (fst m, Z.abs (snd m))) ms ++ done.
Proof.
  induction ms as [|[f q] ms IH] using rev_ind; intros pre done H.
  - cbn [all_at map app]. rewrite app_nil_r. destruct pre as [|[[p f] q] pre _] using rev_ind; [reflexivity|]. rewrite rev_app_distr. cbn [rev app earlier].
    assert (p < n)%Z by (apply (H (p, f, q)), in_or_app; right; left; reflexivity). replace (p =? n)%Z with false by lia. reflexivity.
  - unfold all_at. rewrite map_app, app_assoc, rev_app_distr. cbn [map rev app fst snd earlier]. rewrite Z.eqb_refl. fold (all_at ms n). rewrite IH by exact H.
    rewrite map_app, <- app_assoc. reflexivity.
Qed.
Lemma origins_all s t ms ps2 : origins s ((t, all_at ms 0) :: ps2) = all_at ms s ++ origins (s + Z.of_nat (length t)) ps2.
Proof. cbn [origins]. f_equal. unfold all_at. rewrite map_map. apply map_ext. intros [f q]. cbn. f_equal. f_equal. lia. Qed.
Lemma jump_chain ps1 t ms ps2 offset pos k : Forall proper ps1 -> Forall proper ps2 -> k < length t -> 2 <= length ms ->
  (pos + delta_at offset pos = Z.of_nat (length (raw_text ps1)) + Z.of_nat k)%Z -> proper (t, all_at ms 0) ->
  jumps (origins 0 (ps1 ++ (t, all_at ms 0) :: ps2)) offset pos = map (fun m => (fst m, Z.abs (snd m))) ms.
Proof.
  intros H1 H2 Hk Hm Hpos Hp0. unfold jumps. rewrite Hpos. set (n := Z.of_nat (length (raw_text ps1))).
  assert (Hp : Forall proper (ps1 ++ (t, all_at ms 0) :: ps2)) by (apply Forall_app; split; [exact H1|constructor; assumption]).
  rewrite (bisect_count _ 0) by apply (origins_sorted _ Hp 0).
  assert (EO : origins 0 (ps1 ++ (t, all_at ms 0) :: ps2) = (origins 0 ps1 ++ all_at ms n) ++ origins (n + Z.of_nat (length t)) ps2).
  { rewrite origins_app. cbn [Z.add]. rewrite origins_all. fold n. rewrite app_assoc. reflexivity. }
  rewrite EO. change (fun e : Z * nat * Z => (mark_pos e, 0%Z)) with entry. rewrite map_app, count_app.
  - rewrite map_length, app_length. unfold all_at at 1. rewrite map_length.
    destruct ms as [|[f q] ms' _] using rev_ind; [cbn in Hm; lia|]. rewrite app_length in Hm |- *. cbn [length] in Hm |- *.
    assert (EA : all_at (ms' ++ [(f, q)]) n = all_at ms' n ++ [(n, f, q)]) by (unfold all_at; rewrite map_app; reflexivity).
    replace (length (origins 0 ps1) + (length ms' + 1)) with (S (length (origins 0 ps1 ++ all_at ms' n))) by (unfold all_at; rewrite app_length, map_length; lia).
    rewrite EA. rewrite <- !app_assoc. rewrite (app_assoc (origins 0 ps1)). rewrite app_nth2 by lia. rewrite Nat.sub_diag. cbn [app nth].
    rewrite firstn_app, Nat.sub_diag, firstn_all. cbn [firstn]. rewrite app_nil_r.
    assert (Hlt : forall e, In e (origins 0 ps1) -> (mark_pos e < n)%Z).
    { intros e He. pose proof (origins_range ps1 H1 0) as Hr. rewrite Forall_forall in Hr. apply Hr in He. fold n in He. lia. }
    assert (Es : (match rev (origins 0 ps1 ++ all_at ms' n) with (p, _, _) :: _ => negb (p =? n)%Z | [] => false end) = false).
    { destruct ms' as [|[f' q'] ms'' _] using rev_ind; [cbn in Hm; lia|]. unfold all_at. rewrite map_app, app_assoc, rev_app_distr. cbn [map rev app fst]. rewrite Z.eqb_refl. reflexivity. }
    rewrite Es. cbn [andb]. rewrite earlier_all by exact Hlt. rewrite map_app. reflexivity.
  - rewrite map_app. apply Forall_app. split.
    + apply Forall_map. eapply Forall_impl; [|apply (origins_range ps1 H1 0)]. cbn. fold n. intros; lia.
    + unfold all_at. rewrite map_map. apply Forall_map. apply Forall_forall. intros; cbn; lia.
  - apply Forall_map. eapply Forall_impl; [|apply (origins_range ps2 H2)]. cbn. intros; lia.
Qed.
Lemma chain_from_output r ps1 t ms ps2 : built r (ps1 ++ (t, all_at ms 0) :: ps2) ->
  Forall proper ps1 -> Forall proper ps2 -> 2 <= length ms ->
  exists rel, aligns rel (raw_text (ps1 ++ (t, all_at ms 0) :: ps2)) (r_txt r) /\
    forall k b, k < length t -> rel (length (raw_text ps1) + k) b ->
      jumps (r_browse r) (r_offset r) (Z.of_nat b) = map (fun m => (fst m, Z.abs (snd m))) ms.
Proof.
  intros Hb H1 H2 Hm. destruct (offsets_lead_back r _ Hb) as (B & rel & A & T). exists rel. split; [exact A|].
  intros k b Hk Hab. rewrite B. apply (jump_chain ps1 t ms ps2 _ _ k); try assumption; [destruct (T _ _ Hab) as [_ E]; rewrite E; lia|].
  assert (G : forall lo l (m : list (nat * Z)), (lo <= 0)%Z -> (0 < Z.of_nat l)%Z -> sorted_within lo (Z.of_nat l) (all_at m 0)).
  { clear. intros lo l m. revert lo. induction m as [|[f q] m IH]; intros lo Hl Hh; cbn; [exact I|]. split; [lia|]. apply IH; lia. }
  unfold proper. cbn [fst snd]. apply G; lia.
Qed.
