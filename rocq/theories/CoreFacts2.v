(** Application of functions to arguments: any body (proofs only). *)
From Coq Require Import List NArith ZArith Bool String Lia ZifyBool ZifyNat ZifyN.
From Verif Require Import PyStr Ast Lex Parse Final Eval PyStrFacts EnvSpec EnvFacts EvalSpec EvalMono EvalKeep EvalPure EvalFacts EvalFacts2 EvalFacts3 EvalFacts4 ApplyFacts ApplyFacts2 ApplyFacts3 ApplyFacts4 CoreSpec CoreFacts.
Import ListNotations.
Open Scope list_scope.

Section Core.
Variables (ec : ectx) (parse : text -> M (list node)).
Notation evs := (evals ec parse).
Variable shift : text -> text -> text -> Prop.
Hypothesis Hshift : forall i u w, shift i u w -> w = trim (e_trim ec) i u.
Hypothesis Hbr : e_browse ec = false.
Lemma known_lookup e n v : known e n v -> lookup e n = Some v.
Proof. intros (inner & f & outer & Hi & Hg). eapply lookup_innermost; eassumption. Qed.
Lemma gives_app (l m : list (text * node)) k v : gives (l ++ m) k v -> gives l k v \/ (~ In k (names l) /\ gives m k v).
Proof.
  intros H. apply dict_get_gives in H. rewrite dict_get_app in H. destruct (dict_get k l) as [u|] eqn:El.
  - injection H as ->. left. apply dict_get_gives, El.
  - right. split; [apply dict_get_none, El|apply dict_get_gives, H].
Qed.
Lemma gives_left (l m : list (text * node)) k v : gives l k v -> gives (l ++ m) k v.
Proof. intros H. apply dict_get_gives in H. apply dict_get_gives. rewrite dict_get_app, H. reflexivity. Qed.
Lemma gives_in (l : list (text * node)) k v : gives l k v -> In k (names l).
Proof. intros (x & y & -> & _). unfold names. rewrite map_app. apply in_or_app. right. left. reflexivity. Qed.
(* gs : names with the same value everywhere *)
Variable gs : list (text * node).
Definition cbody (free : text -> Prop) (bs : list (text * node)) E v (b : node) (f : frame) : Prop :=
  res ec parse shift free (bs ++ gs) E b /\ (forall k, In k (names bs) -> dict_mem k f = true) /\
  (forall n, free n \/ In n (names gs) -> dict_mem n f = false) /\
  ((forall k w, gives bs k w -> dict_get k f = Some w) -> b = v).
Lemma cbody_step (free : text -> Prop) bs E v (e : env) s :
  Forall (fun b => data (snd b)) bs -> Forall (fun b => data (snd b)) gs -> (forall n, free n -> ~ In n (names bs)) -> (forall n, free n -> unknown e n) ->
  (forall k w, gives gs k w -> lookup e k = Some w) ->
  means ec parse shift free (bs ++ gs) E v -> forall b f0 f, cbody free bs E v b f0 -> extends f0 f -> settled data f -> agrees bs f ->
  exists b', evs b (f :: e) s b' (f :: e) s /\ cbody free bs E v b' f.
Proof.
  intros Hd Hg Hfr He Hge Hm b f0 f (H1 & H2 & H3 & H4) Hx Hs Ha. pose proof (proj2 Hx) as Hmem.
  assert (Hglob : forall k w, gives gs k w -> lookup (f :: e) k = Some w).
  { intros k w Hk. cbn [lookup]. pose proof (H3 k (or_intror (gives_in _ _ _ Hk))) as Hf. rewrite <- Hmem in Hf. unfold dict_mem in Hf.
    destruct (dict_get k f); [discriminate Hf|apply Hge, Hk]. }
  assert (Hloc : forall k w, gives bs k w -> dict_get k f = Some NBound \/ dict_get k f = Some w).
  { intros k w Hk. assert (Hkf : dict_mem k f = true).
    { rewrite Hmem. apply H2. eapply gives_in, Hk. }
    unfold dict_mem in Hkf. destruct (dict_get k f) as [u|] eqn:Ek; [|discriminate Hkf]. destruct (is_bound_spec u) as [->|Hu]; [left; reflexivity|right].
    rewrite <- (proj2 (dict_get_gives bs k w) Hk). symmetry. apply Ha; assumption. }
  destruct (all_steps ec parse shift Hshift Hbr free (bs ++ gs)) with (s := s) (F := f :: e) (E := E) (v := v) (x := b) as (b' & B1 & B2 & B3); try assumption.
  - apply Forall_app. split; assumption.
  - intros n w Hn Hk. apply gives_app in Hk as [Hk|[_ Hk]]; [apply (Hfr n Hn); eapply gives_in, Hk|].
    pose proof (Hge _ _ Hk) as Hl. rewrite (proj2 (lookup_unknown _ _) (He n Hn)) in Hl. discriminate Hl.
  - intros k w Hk. apply gives_app in Hk as [Hk|[_ Hk]]; [|right; apply Hglob, Hk].
    cbn [lookup]. destruct (Hloc _ _ Hk) as [-> | ->]; auto.
  - intros n Hn. apply lookup_unknown. constructor; [|apply He, Hn]. intros Hin. apply dict_mem_names in Hin. rewrite Hmem, (H3 n (or_introl Hn)) in Hin. discriminate Hin.
  - exists b'. split; [exact B1|]. split; [exact B2|]. split; [intros k Hk; rewrite Hmem; auto|]. split; [intros n Hn; rewrite Hmem; auto|].
    intros Hfull. apply B3. intros k w Hk. apply gives_app in Hk as [Hk|[_ Hk]]; [|apply Hglob, Hk]. cbn [lookup]. rewrite (Hfull _ _ Hk). reflexivity.
Qed.
Lemma cbody_init (free : text -> Prop) bs ps E v : (forall n, free n -> ~ In n ps) -> (forall n, In n (names gs) -> ~ In n ps) -> names bs = ps -> bs <> [] -> Forall (fun b => data (snd b)) bs ->
  cbody free bs E v (tree E) (fresh_frame ps).
Proof.
  intros Hfr Hgr Hn Hne Hd. split; [apply res_tree|]. split; [|split].
  - intros k Hk. apply dict_mem_names. rewrite names_fresh, <- Hn. exact Hk.
  - intros n Hf. destruct (dict_mem n (fresh_frame ps)) eqn:E1; [|reflexivity]. apply dict_mem_names in E1. rewrite names_fresh in E1. destruct Hf as [Hf|Hf]; [destruct (Hfr n Hf E1)|destruct (Hgr n Hf E1)].
  - intros H. exfalso. destruct bs as [|[k w] bs]; [congruence|].
    assert (Hg : gives ((k, w) :: bs) k w) by (exists [], bs; split; [reflexivity|intros []]).
    specialize (H k w Hg). rewrite (fresh_get ps k) in H by (rewrite <- Hn; left; reflexivity). injection H as <-. inversion Hd; subst.
    match goal with H : data _ |- _ => inversion H end.
Qed.
Lemma constants_data ps e0 e : Forall (constant ps e0 e) gs -> Forall (fun b => data (snd b)) gs.
Proof. intros H. eapply Forall_impl; [|exact H]. intros b (_ & Hd & _). exact Hd. Qed.
Lemma constants_out ps e0 e : Forall (constant ps e0 e) gs -> forall n, In n (names gs) -> ~ In n ps.
Proof. intros H n Hn. unfold names in Hn. apply in_map_iff in Hn as (b & <- & Hb). rewrite Forall_forall in H. apply H, Hb. Qed.
Lemma constants_there ps e0 e : Forall (constant ps e0 e) gs -> forall k w, gives gs k w -> lookup e0 k = Some w /\ lookup e k = Some w.
Proof.
  intros H k w (x & y & Eg & _). rewrite Forall_forall in H. destruct (H (k, w)) as (_ & _ & H1 & H2); [rewrite Eg; apply in_or_app; right; left; reflexivity|].
  split; apply known_lookup; assumption.
Qed.
Lemma fresh_agrees ps bs : agrees bs (fresh_frame ps).
Proof.
  intros k v Hk Hv. destruct (in_dec (list_eq_dec N.eq_dec) k ps) as [Hi|Hi]; [rewrite (fresh_get ps k Hi) in Hk; congruence|].
  rewrite (proj2 (dict_get_none _ _)) in Hk; [discriminate Hk|]. rewrite names_fresh. exact Hi.
Qed.
Lemma binds_names nm dflt ps vs bs : binds nm dflt ps vs bs -> names bs = ps.
Proof. apply binds_keys. Qed.
Lemma body_applied e0 s0 bd ps dflt E c e s fn args vs named nm bs file pos v :
  declares ec parse e0 s0 bd ps dflt -> NoDup ps -> ps <> [] ->
  evs (NLambda bd (tree E)) e0 s0 c e0 s0 ->
  evs fn e s c e s -> evs (NList args) e s (NList vs) e s -> Forall data vs ->
  named_values ec parse e s named nm -> Forall (fun b => data (snd b)) nm -> Forall (fun b => data (snd b)) dflt ->
  incl (names nm) ps -> binds nm dflt ps vs bs ->
  Forall (constant ps e0 e) gs -> means ec parse shift (outside ps e0 e) (bs ++ gs) E v ->
  evs (NApply fn args named file pos) e s v e s.
Proof.
  intros Hd Hn Hne Hc Hfn Ha Hvs Hnv Hns Hdst Hin Hbs Hgs Hm.
  pose proof (constants_data _ _ _ Hgs) as Hgd. pose proof (constants_out _ _ _ Hgs) as Hgo. pose proof (constants_there _ _ _ Hgs) as Hgt.
  assert (Hro : rest_ok data ps) by (intros _ l; apply DA_list).
  pose proof (binds_keys _ _ _ _ _ Hbs) as Hk.
  pose proof (binds_ste data _ _ _ _ _ Hbs Hro Hns Hdst Hvs) as Hbd.
  assert (Hf1 : forall n, outside ps e0 e n -> ~ In n (names bs)) by (intros n (H & _); rewrite Hk; exact H).
  destruct (lambda_applied ec parse data (data_steady ec parse) (cbody (outside ps e0 e) bs E v) e0 s0 bd ps dflt (tree E) c e s fn args vs named nm bs file pos)
    as (w & fr & (_ & _ & _ & Hw) & Hfr & Hev); try assumption.
  - apply cbody_step; try assumption; [intros n (_ & _ & H); exact H|intros k w Hk2; apply Hgt, Hk2].
  - apply (cbody_step (outside ps e0 e) bs E v e0 s0 Hbd Hgd Hf1) with (f0 := fresh_frame ps); try assumption.
    + intros n (_ & H & _). exact H.
    + intros k w Hk2. apply Hgt, Hk2.
    + apply cbody_init; try assumption; [intros n (H & _); exact H|]. intros ->. apply Hne. symmetry. exact Hk.
    + apply extends_refl.
    + apply fresh_settled.
    + apply fresh_agrees.
  - rewrite <- Hw; [exact Hev|]. intros k u Hg. apply Hfr, dict_get_gives, Hg.
Qed.
Lemma body_defined e0 s0 bd ps dflt E bs v e :
  declares ec parse e0 s0 bd ps dflt -> NoDup ps -> ps <> [] -> names bs = ps -> Forall (fun b => data (snd b)) bs ->
  Forall (constant ps e0 e) gs -> means ec parse shift (outside ps e0 e) (bs ++ gs) E v ->
  exists c, evs (NLambda bd (tree E)) e0 s0 c e0 s0.
Proof.
  intros Hd Hn Hne Hk Hbd Hgs Hm.
  pose proof (constants_data _ _ _ Hgs) as Hgd. pose proof (constants_out _ _ _ Hgs) as Hgo. pose proof (constants_there _ _ _ Hgs) as Hgt.
  destruct (cbody_step (outside ps e0 e) bs E v e0 s0 Hbd Hgd) with (b := tree E) (f0 := fresh_frame ps) (f := fresh_frame ps) as (b' & [n Hb'] & _).
  - intros n (H & _). rewrite Hk. exact H.
  - intros n (_ & H & _). exact H.
  - intros k w Hk2. apply Hgt, Hk2.
  - exact Hm.
  - apply cbody_init; try assumption; [intros n (H & _); exact H|]. intros ->. apply Hne. symmetry. exact Hk.
  - apply extends_refl.
  - apply fresh_settled.
  - apply fresh_agrees.
  - eexists. apply evals_fin, (lambda_fin _ _ _ _ _ _ _ _ Hd Hn), evals_fin. exists (S n). cbn [yueval eval_body]. unfold ebind, in_frame. rewrite Hb'.
    rewrite unassigned_opens, opens_fresh. destruct ps; [congruence|]. cbn [hd_error]. reflexivity.
Qed.

Lemma names_combine {A} (ps : list text) (vs : list A) : List.length vs = List.length ps -> names (combine ps vs) = ps.
Proof. revert vs. induction ps as [|q ps IH]; intros [|v vs] H; try discriminate H; [reflexivity|]. cbn [combine names map fst]. f_equal. apply IH. injection H as H. exact H. Qed.
Lemma body_curried e0 s0 bd ps1 p ps2 dflt E c e s fn args1 vs1 args2 vs2 bs file1 pos1 file2 pos2 v :
  declares ec parse e0 s0 bd (ps1 ++ p :: ps2) dflt -> NoDup (ps1 ++ p :: ps2) ->
  evs (NLambda bd (tree E)) e0 s0 c e0 s0 ->
  evs fn e s c e s -> evs (NList args1) e s (NList vs1) e s -> Forall data vs1 ->
  evs (NList args2) e s (NList vs2) e s -> Forall data vs2 -> Forall (fun b => data (snd b)) dflt ->
  List.length vs1 = List.length ps1 -> ~ In (lit "__va_args__") ps1 -> ~ In p (names dflt) ->
  binds [] dflt (p :: ps2) vs2 bs ->
  Forall (constant (ps1 ++ p :: ps2) e0 e) gs ->
  means ec parse shift (outside (ps1 ++ p :: ps2) e0 e) ((combine ps1 vs1 ++ bs) ++ gs) E v ->
  exists c1, evs (NApply fn args1 [] file1 pos1) e s c1 e s /\
    forall fn2, evs fn2 e s c1 e s -> evs (NApply fn2 args2 [] file2 pos2) e s v e s.
Proof.
  intros Hd Hn Hc Hfn Ha1 Hvs1 Ha2 Hvs2 Hdst Hl Hva Hp Hbs Hgs Hm.
  pose proof (constants_data _ _ _ Hgs) as Hgd. pose proof (constants_out _ _ _ Hgs) as Hgo. pose proof (constants_there _ _ _ Hgs) as Hgt.
  set (ps := ps1 ++ p :: ps2) in *. set (bb := combine ps1 vs1 ++ bs) in *.
  pose proof (fun v H => data_steady ec parse v H) as Hok.
  assert (Hne : ps <> []) by (unfold ps; destruct ps1; discriminate).
  assert (Hro : forall q, rest_ok data q) by (intros q _ l; apply DA_list).
  pose proof (binds_keys _ _ _ _ _ Hbs) as Hkb.
  assert (Hkk : names bb = ps) by (unfold bb, names; rewrite map_app; fold (names (combine ps1 vs1)); fold (names bs); rewrite names_combine, Hkb by exact Hl; reflexivity).
  assert (Hbd : Forall (fun b => data (snd b)) bs) by (eapply binds_ste; [exact Hbs|apply Hro|constructor|exact Hdst|exact Hvs2]).
  assert (Hbb : Forall (fun b => data (snd b)) bb).
  { apply Forall_app. split; [|exact Hbd]. apply Forall_forall. intros [k w] Hin. apply in_combine_r in Hin. rewrite Forall_forall in Hvs1. apply Hvs1, Hin. }
  assert (Hf1 : forall n, outside ps e0 e n -> ~ In n (names bb)) by (intros n (H & _); rewrite Hkk; exact H).
  set (B := cbody (outside ps e0 e) bb E v).
  assert (St0 : forall b f0 f, B b f0 -> extends f0 f -> settled data f -> agrees bb f -> exists b', evs b (f :: e0) s0 b' (f :: e0) s0 /\ B b' f).
  { apply cbody_step; try assumption; [intros n (_ & H & _); exact H|intros k w Hk2; apply Hgt, Hk2]. }
  assert (St : forall b f0 f, B b f0 -> extends f0 f -> settled data f -> agrees bb f -> exists b', evs b (f :: e) s b' (f :: e) s /\ B b' f).
  { apply cbody_step; try assumption; [intros n (_ & _ & H); exact H|intros k w Hk2; apply Hgt, Hk2]. }
  assert (B0 : B (tree E) (fresh_frame ps)).
  { apply cbody_init; try assumption; [intros n (H & _); exact H|]. intros Hb. apply Hne. rewrite <- Hkk, Hb. reflexivity. }
  assert (Hnd : NoDup (names (fresh_frame ps))) by (rewrite names_fresh; exact Hn).
  assert (Hclo : exists b', B b' (fresh_frame ps) /\ c = NLClosure b' (fresh_frame ps) [] dflt).
  { apply evals_fin, (lambda_fin _ _ _ _ _ _ _ _ Hd Hn), evals_fin in Hc.
    destruct (evs_closure ec parse data e0 s0 dflt B (agrees bb) St0 _ _ _ B0 (extends_refl _) (fresh_settled _ _) (fresh_agrees _ _)) as (b' & Hb' & Hev).
    exists b'. split; [exact Hb'|]. destruct (evals_det _ _ _ _ _ _ _ _ _ _ _ Hc Hev) as (-> & _ & _). unfold outcome_of.
    rewrite unassigned_opens, opens_fresh. destruct ps; [congruence|reflexivity]. }
  destruct Hclo as (b' & Hb' & ->).
  destruct (partial_fill ec parse data dflt vs1 Hok Hvs1 ps1 p ps2 (fresh_frame ps)) as (f1 & Hf1' & Ho1 & Hg1).
  { symmetry. exact Hl. } { apply opens_fresh. } { exact Hn. } { exact Hva. } { apply dict_get_none, Hp. }
  pose proof (fills_settled _ _ _ _ _ _ Hf1' (fresh_settled _ _)) as Hs1.
  pose proof (fills_nodup _ _ _ _ _ _ Hf1' Hnd) as Hd1.
  assert (Hn2 : NoDup (p :: ps2)) by (unfold ps in Hn; clear -Hn; induction ps1 as [|q ps1 IH]; [exact Hn|inversion Hn; auto]).
  destruct (binds_fill ec parse data Hok [] dflt (p :: ps2) vs2 bs f1 Hbs) as (fr & Hf2 & Hu2 & Hg2); try assumption.
  { constructor. } { intros k []. } { apply Hro. } { constructor. }
  pose proof (fills_extends data dflt _ _ _ _ Hf2 Hd1) as He2.
  pose proof (fills_extends data dflt _ _ _ _ Hf1' Hnd) as He1.
  (* the final frame gives exactly the values of bb *)
  assert (Hbbfr : forall k w, dict_get k bb = Some w -> dict_get k fr = Some w).
  { intros k w Hk. unfold bb in Hk. rewrite dict_get_app in Hk. destruct (dict_get k (combine ps1 vs1)) as [u|] eqn:Ek.
    - injection Hk as ->. apply He2; [rewrite Hg1, Ek; reflexivity|].
      apply dict_get_gives in Ek as (x & y & E1 & _). rewrite Forall_forall in Hvs1. apply data_unbound, Hvs1.
      apply (in_combine_r ps1 vs1 k w). rewrite E1. apply in_or_app. right. left. reflexivity.
    - apply Hg2, Hk. }
  assert (Hag : agrees bb fr).
  { intros k w Hk _. assert (Hin : In k (names bb)).
    { rewrite Hkk, <- (names_fresh ps). apply dict_mem_names. rewrite <- (proj2 He1 k), <- (proj2 He2 k). unfold dict_mem. rewrite Hk. reflexivity. }
    apply dict_mem_names in Hin. unfold dict_mem in Hin. destruct (dict_get k bb) as [u|] eqn:Eu; [|discriminate Hin].
    rewrite (Hbbfr _ _ Eu) in Hk. exact Hk. }
  pose proof (agrees_down bb f1 fr He2 Hag) as Hag1.
  destruct (fills_apply ec parse data Hok e s dflt B (agrees bb) (agrees_down bb) St fn args1 b' (fresh_frame ps) [] vs1 f1 [] file1 pos1
    Hfn Ha1 Hf1' Hb' (fresh_settled _ _) Hnd Hag1) as (b1 & Hb1 & Hev1); [constructor|].
  unfold outcome_of in Hev1. rewrite unassigned_opens, Ho1 in Hev1. cbn [hd_error] in Hev1.
  exists (NLClosure b1 f1 [] dflt). split; [exact Hev1|]. intros fn2 Hfn2.
  destruct (fills_apply ec parse data Hok e s dflt B (agrees bb) (agrees_down bb) St fn2 args2 b1 f1 [] vs2 fr [] file2 pos2
    Hfn2 Ha2 Hf2 Hb1 Hs1 Hd1 Hag) as (b2 & (_ & _ & _ & Hw) & Hev2); [constructor|].
  unfold outcome_of in Hev2. rewrite Hu2 in Hev2. rewrite <- Hw; [exact Hev2|]. intros k w Hg. apply Hbbfr, dict_get_gives, Hg.
Qed.
End Core.
