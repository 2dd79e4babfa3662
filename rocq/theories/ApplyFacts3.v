(** Partial application, unknown names, text templates (proofs only). *)
From Coq Require Import List NArith ZArith Bool String Lia ZifyBool ZifyNat ZifyN.
From Verif Require Import PyStr Ast Lex Parse Final Eval PyStrFacts EnvSpec EnvFacts EvalSpec EvalMono EvalKeep EvalPure EvalFacts EvalFacts2 EvalFacts3 EvalFacts4 ApplyFacts ApplyFacts2.
Import ListNotations.
Open Scope list_scope.

Section Facts.
Variables (ec : ectx) (parse : text -> M (list node)).
Notation ev := (yueval ec parse).
Notation fin := (finishes ec parse).
Notation evs := (evals ec parse).
Notation ste := (steady ec parse).

(** ** Unknown names *)
Lemma lambda_closure e0 s0 bd ps dflt body c e1 s1 :
  declares ec parse e0 s0 bd ps dflt -> NoDup ps -> ps <> [] ->
  evs (NLambda bd body) e0 s0 c e1 s1 ->
  exists b f, c = NLClosure b f [] dflt /\ names f = ps.
Proof.
  intros Hd Hn Hne Hc. apply evals_fin, (lambda_fin _ _ _ _ _ _ _ _ Hd Hn), evals_fin in Hc. destruct Hc as [n Hc].
  destruct n as [|n]; [discriminate Hc|]. cbn [yueval eval_body] in Hc. unfold ebind, in_frame in Hc.
  destruct (ev n body (fresh_frame ps :: e0) s0) as [[[v [|f e']] s']| |] eqn:Ev; try discriminate Hc.
  rewrite unassigned_opens, opens_fresh in Hc. destruct ps as [|p ps]; [congruence|]. cbn [hd_error] in Hc.
  injection Hc as <- <- <-. exists v, f. split; [reflexivity|].
  apply yueval_keeps in Ev. cbn [scopes map] in Ev. injection Ev as Ef _. rewrite Ef. f_equal. apply names_fresh.
Qed.
Lemma unknown_parameter e0 s0 bd ps dflt body c e1 s1 e s fn args vs e2 s2 e3 s3 a val named file pos :
  declares ec parse e0 s0 bd ps dflt -> NoDup ps -> ps <> [] ->
  evs (NLambda bd body) e0 s0 c e1 s1 ->
  evs fn e s c e2 s2 -> evs (NList args) e2 s2 (NList vs) e3 s3 -> ~ In (s_txt a) ps ->
  fin (NApply fn args ((a, val) :: named) file pos) e s (Err (Exn TypeError "yueval: function has no parameter")).
Proof.
  intros Hd Hn Hne Hc Hfn Ha Hin. destruct (lambda_closure _ _ _ _ _ _ _ _ _ Hd Hn Hne Hc) as (b & f & -> & Hf).
  apply (apply_fin ec parse fn args _ file pos e s _ e2 s2 _ e3 s3 _ Hfn Ha).
  split; [discriminate|]. exists O. unfold apply_rest. cbn [as_closure apply_closure cl_env].
  rewrite <- Hf in Hin. apply dict_get_none in Hin. rewrite Hin. reflexivity.
Qed.

(** ** Partial application *)
Lemma partial_fill (okv : node -> Prop) dflt vs : (forall v, okv v -> ste v) -> Forall okv vs -> forall ps1 p ps2 f,
  List.length ps1 = List.length vs -> opens f = ps1 ++ p :: ps2 -> NoDup (ps1 ++ p :: ps2) -> ~ In va_args ps1 ->
  dict_get p dflt = None ->
  exists fr, fills okv dflt f [] vs fr /\ opens fr = p :: ps2 /\
    forall k, dict_get k fr = match dict_get k (combine ps1 vs) with Some v => Some v | None => dict_get k f end.
Proof.
  intros Hok. induction 1 as [|v vs Hv _ IH]; intros [|p1 ps1] p ps2 f Hl Hf Hn Hva Hp; try discriminate Hl.
  - exists f. split; [eapply F_open; [rewrite unassigned_opens, Hf; reflexivity|exact Hp]|]. split; [exact Hf|reflexivity].
  - cbn [app] in Hf, Hn. inversion Hn as [|? ? Hn1 Hn2]; subst.
    destruct (IH ps1 p ps2 (frame_set p1 v f)) as (fr & H1 & H2 & H3).
    { injection Hl as Hl. exact Hl. }
    { rewrite opens_set, Hf by (eapply okv_not_bound; [exact Hok|exact Hv]). apply filter_head, Hn1. }
    { exact Hn2. } { intros H. apply Hva. right. exact H. } { exact Hp. }
    exists fr. split; [|split; [exact H2|]].
    + eapply F_pos; [rewrite unassigned_opens, Hf; reflexivity| |exact Hv|exact H1].
      intros ->. apply Hva. left. reflexivity.
    + intros k. rewrite H3, get_set. cbn [combine dict_get]. destruct (teqb_spec k p1) as [->|Hk].
      * rewrite teqb_refl. replace (dict_get p1 (combine ps1 vs)) with (@None node); [reflexivity|].
        symmetry. apply dict_get_none. intros H. apply Hn1. apply in_or_app. left.
        unfold names in H. apply in_map_iff in H as ([k2 v2] & E1 & H). cbn [fst] in E1. subst k2. eapply in_combine_l, H.
      * destruct (teqb_spec p1 k); [congruence|reflexivity].
Qed.
Lemma fills_settled okv dflt f nm vs fr : fills okv dflt f nm vs fr -> settled okv f -> settled okv fr.
Proof. induction 1; intros Hs; auto; apply IHfills, settled_set; assumption. Qed.
Lemma fills_nodup okv dflt f nm vs fr : fills okv dflt f nm vs fr -> NoDup (names f) -> NoDup (names fr).
Proof. induction 1; intros Hs; auto; apply IHfills, frame_set_nodup; assumption. Qed.
Lemma list_function_curried e0 s0 bd ps1 p ps2 dflt items c e s fn args1 vs1 args2 vs2 bs file1 pos1 file2 pos2 :
  declares ec parse e0 s0 bd (ps1 ++ p :: ps2) dflt -> NoDup (ps1 ++ p :: ps2) ->
  Forall (fun i => match i with LVar _ a => In (s_txt a) (ps1 ++ p :: ps2) | LConst v => ste v end) items ->
  evs (NLambda bd (NList (map lnode items))) e0 s0 c e0 s0 ->
  evs fn e s c e s -> evs (NList args1) e s (NList vs1) e s -> Forall ste vs1 ->
  evs (NList args2) e s (NList vs2) e s -> Forall ste vs2 ->
  List.length vs1 = List.length ps1 -> ~ In (lit "__va_args__") ps1 -> ~ In p (names dflt) ->
  binds [] dflt (p :: ps2) vs2 bs ->
  exists c1 ws, evs (NApply fn args1 [] file1 pos1) e s c1 e s /\
    Forall2 (lvalue (combine ps1 vs1 ++ bs)) items ws /\
    forall fn2, evs fn2 e s c1 e s -> evs (NApply fn2 args2 [] file2 pos2) e s (NList ws) e s.
Proof.
  intros Hd Hn Hi Hc Hfn Ha1 Hvs1 Ha2 Hvs2 Hl Hva Hp Hbs.
  assert (Hne : ps1 ++ p :: ps2 <> []) by (destruct ps1; discriminate).
  assert (Hb0 : lbody ec parse items (NList (map lnode items)) (fresh_frame (ps1 ++ p :: ps2))).
  { exists (map lnode items). split; [reflexivity|]. clear -Hi. induction Hi as [|i items Hi _ IH]; constructor; [|exact IH].
    destruct i as [r a|v]; cbn [lnode lstate]; [|auto]. exists NBound. split; [apply fresh_get, Hi|reflexivity]. }
  assert (Hnd : NoDup (names (fresh_frame (ps1 ++ p :: ps2)))) by (rewrite names_fresh; exact Hn).
  assert (Hclo : exists b', lbody ec parse items b' (fresh_frame (ps1 ++ p :: ps2)) /\ c = NLClosure b' (fresh_frame (ps1 ++ p :: ps2)) [] dflt).
  { apply evals_fin, (lambda_fin _ _ _ _ _ _ _ _ Hd Hn), evals_fin in Hc.
    destruct (evs_closure ec parse ste e0 s0 dflt _ (fun _ => True) (fun b f0 f H1 H2 H3 _ => lbody_step ec parse items b f0 f e0 s0 H1 H2 H3) _ _ _ Hb0 (extends_refl _) (fresh_settled _ _) Logic.I) as (b' & Hb' & Hev).
    exists b'. split; [exact Hb'|]. destruct (evals_det _ _ _ _ _ _ _ _ _ _ _ Hc Hev) as (-> & _ & _). unfold outcome_of.
    rewrite unassigned_opens, opens_fresh. destruct (ps1 ++ p :: ps2); [congruence|reflexivity]. }
  destruct Hclo as (b' & Hb' & ->).
  destruct (partial_fill ste dflt vs1 (fun v H => H) Hvs1 ps1 p ps2 (fresh_frame (ps1 ++ p :: ps2))) as (f1 & Hf1 & Ho1 & Hg1).
  { symmetry. exact Hl. } { apply opens_fresh. } { exact Hn. } { exact Hva. } { apply dict_get_none, Hp. }
  destruct (fills_apply ec parse ste (fun v H => H) e s dflt _ (fun _ => True) (fun _ _ _ H => H) (fun b f0 f H1 H2 H3 _ => lbody_step ec parse items b f0 f e s H1 H2 H3) fn args1 b' (fresh_frame (ps1 ++ p :: ps2)) [] vs1 f1 []
    file1 pos1 Hfn Ha1 Hf1 Hb' (fresh_settled _ _) Hnd Logic.I) as (b1 & Hb1 & Hev1); [constructor|].
  unfold outcome_of in Hev1. rewrite unassigned_opens, Ho1 in Hev1. cbn [hd_error] in Hev1.
  pose proof (fills_settled _ _ _ _ _ _ Hf1 (fresh_settled _ _)) as Hs1.
  pose proof (fills_nodup _ _ _ _ _ _ Hf1 Hnd) as Hd1.
  assert (Hn2 : NoDup (p :: ps2)) by (clear -Hn; induction ps1 as [|q ps1 IH]; [exact Hn|inversion Hn; auto]).
  destruct (binds_fill ec parse ste (fun v H => H) [] dflt (p :: ps2) vs2 bs f1 Hbs) as (fr & Hf2 & Hu2 & Hg2); try assumption.
  { constructor. } { intros k []. } { intros _ vs. apply ste_list. } { constructor. } { eapply declares_ste, Hd. }
  pose proof (fills_extends _ _ _ _ _ _ Hf2 Hd1) as [He2 _].
  assert (Hev2 : forall fn2, evs fn2 e s (NLClosure b1 f1 [] dflt) e s ->
    exists v, lbody ec parse items v fr /\ evs (NApply fn2 args2 [] file2 pos2) e s v e s).
  { intros fn2 Hfn2.
    destruct (fills_apply ec parse ste (fun v H => H) e s dflt _ (fun _ => True) (fun _ _ _ H => H) (fun b f0 f H1 H2 H3 _ => lbody_step ec parse items b f0 f e s H1 H2 H3) fn2 args2 b1 f1 [] vs2 fr []
      file2 pos2 Hfn2 Ha2 Hf2 Hb1 Hs1 Hd1 Logic.I) as (b2 & Hb2 & Hev2); [constructor|].
    unfold outcome_of in Hev2. rewrite Hu2 in Hev2. eauto. }
  assert (Hws : forall v, lbody ec parse items v fr -> exists ws, v = NList ws /\ Forall2 (lvalue (combine ps1 vs1 ++ bs)) items ws).
  { intros v (ws & -> & Hws). exists ws. split; [reflexivity|].
    assert (Hps : forall k, In k (ps1 ++ p :: ps2) -> exists v, dict_get k (combine ps1 vs1 ++ bs) = Some v /\ dict_get k fr = Some v /\ v <> NBound).
    { intros k Hk. rewrite dict_get_app. destruct (dict_get k (combine ps1 vs1)) as [v|] eqn:Ek.
      - exists v. split; [reflexivity|]. assert (Hvb : v <> NBound).
        { apply dict_get_gives in Ek. destruct Ek as (x & y & E & _). assert (Hin : In v vs1).
          { apply (in_combine_r ps1 vs1 k v). rewrite E. apply in_or_app. right. left. reflexivity. }
          rewrite Forall_forall in Hvs1. apply (ste_not_bound ec parse), Hvs1, Hin. }
        split; [|exact Hvb]. apply He2; [|exact Hvb]. rewrite Hg1, Ek. reflexivity.
      - assert (Hk2 : In k (p :: ps2)).
        { apply in_app_or in Hk as [Hk|Hk]; [|exact Hk]. exfalso. apply dict_get_none in Ek. apply Ek.
          clear -Hk Hl. revert vs1 Hl. induction ps1 as [|q ps1 IH]; intros vs1 Hl; [destruct Hk|].
          destruct vs1 as [|v vs1]; [discriminate Hl|]. cbn [combine names map fst]. destruct Hk as [->|Hk]; [left; reflexivity|right].
          apply IH; [exact Hk|]. injection Hl as Hl. exact Hl. }
        rewrite <- (binds_keys _ _ _ _ _ Hbs) in Hk2. apply dict_mem_names in Hk2. unfold dict_mem in Hk2.
        destruct (dict_get k bs) as [v|] eqn:Ekb; [|discriminate Hk2]. exists v. split; [reflexivity|].
        split; [apply Hg2, Ekb|]. assert (Hst : Forall (fun b => ste (snd b)) bs).
        { eapply binds_ste; [exact Hbs| | | |exact Hvs2]; [intros _ vs; apply ste_list|constructor|eapply declares_ste, Hd]. }
        apply dict_get_gives in Ekb. destruct Ekb as (x & y & E & _). rewrite E in Hst. apply Forall_app in Hst as [_ Hst].
        inversion Hst; subst. apply (ste_not_bound ec parse). assumption. }
    clear -Hws Hi Hps. induction Hws as [|i x items ws Hx _ IH]; constructor.
    - inversion Hi as [|? ? Hi1 _]; subst. destruct i as [r a|v].
      + destruct Hx as (v & Hv & ->). destruct (Hps _ Hi1) as (w & Hw & H1 & H2).
        assert (v = w) by congruence. subst v. replace (match w with NBound => NVar r a | _ => w end) with w by (destruct w; try reflexivity; congruence).
        constructor. apply dict_get_gives, Hw.
      + destruct Hx as [-> _]. constructor.
    - inversion Hi; subst. apply IH. assumption. }
  destruct (Hev2 _ Hev1) as (v0 & Hv0 & Hev0). destruct (Hws _ Hv0) as (ws & -> & Hws0).
  exists (NLClosure b1 f1 [] dflt), ws. split; [exact Hev1|]. split; [exact Hws0|]. intros fn2 Hfn2.
  destruct (Hev2 _ Hfn2) as (v2 & Hv2 & Hev3). destruct (Hws _ Hv2) as (ws2 & -> & Hws2).
  replace ws with ws2; [exact Hev3|].
  clear -Hws2 Hws0. revert ws2 Hws2. induction Hws0 as [|i x items ws Hx _ IH]; intros ws2 H; inversion H as [|? y ? ws3 Hy H']; subst; [reflexivity|].
  f_equal; [|apply IH, H']. destruct Hx as [r a v Hv|v]; inversion Hy; subst; [|reflexivity].
  apply dict_get_gives in Hv. match goal with H : gives _ _ y |- _ => apply dict_get_gives in H end. congruence.
Qed.
End Facts.
