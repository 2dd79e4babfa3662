(** Sources with definitions and applications (proofs only). *)
From Coq Require Import List NArith ZArith Bool String Lia ZifyBool ZifyNat ZifyN.
From Verif Require QuoteFacts UseFacts4.
From Verif Require Import PyStr LexSpec Ast Lex Parse Final Eval PyStrFacts EnvSpec EnvFacts EvalSpec EvalMono EvalKeep EvalPure EvalFacts EvalFacts2 EvalFacts3 EvalFacts4 ApplyFacts ApplyFacts2 ApplyFacts3 ApplyFacts4 DefSpec DefFacts ExprSpec TrimSpec CoreSpec CoreFacts CoreFacts2 CoreCases RunSpec UseSpec ChainFacts.
Import ListNotations.
Open Scope list_scope.

Scheme value_mind := Minimality for value Sort Prop
with all_values_mind := Minimality for all_values Sort Prop
with named_value_mind := Minimality for named_value Sort Prop
with defines_mind := Minimality for defines Sort Prop
with parameters_mind := Minimality for parameters Sort Prop.
Combined Scheme value_both from value_mind, all_values_mind, named_value_mind, defines_mind, parameters_mind.

(** ** Trees and their locations *)
Lemma bare_src_raw s t f p : bare_src s = Src t f p -> s_txt s = t.
Proof. intros H. injection H as H _ _. exact H. Qed.
Lemma data_bare v : data v -> data (bare v).
Proof.
  intros H. induction H using data_nest; cbn [bare]; try (constructor; fail). apply DA_list, Forall_map. assumption.
Qed.
Lemma bare_data v : data v -> forall x, bare x = v -> data x.
Proof.
  intros D. induction D as [| | | | | | |l HF] using data_nest; intros x E;
    destruct x; try discriminate E; try (constructor; fail).
  - cbn in E. injection E as _ _ ->. apply DA_plain.
  - cbn in E. injection E as E. apply DA_list. revert l0 E. induction HF as [|y l Hy _ IH]; intros [|z m] E; try discriminate E; constructor.
    + apply Hy. injection E as E _. exact E.
    + apply IH. injection E as _ E. exact E.
Qed.
Lemma bare_value_text v u : value_text (bare v) u -> value_text v u.
Proof. destruct v; intros H; inversion H; subst; [apply (VT_str s)| |]; constructor. Qed.
Lemma bare_shown v : data v -> forall u, shown (bare v) u -> shown v u.
Proof.
  intros D. induction D as [| | | | | |s i|l HF] using data_nest; intros u H.
  1-6: inversion H as [w u' Hv E|s' i' E|m us Hl E]; subst; apply SH_value, bare_value_text, Hv.
  - inversion H as [w u' Hv E|s' i' E|m us Hl E]; subst; [inversion Hv|]. apply (SH_plain s i).
  - inversion H as [w u' Hv E|s' i' E|m us Hl E]; subst; [inversion Hv|]. apply SH_list. clear H.
    revert us Hl. induction HF as [|y l Hy _ IH]; intros us Hl; inversion Hl; subst; constructor; auto.
Qed.
Lemma bare_term v : data v -> is_term (bare v) = true.
Proof. intros H. apply data_term, data_bare, H. Qed.
Lemma bare_false v : data v -> false_value (bare v) <-> false_value v.
Proof.
  intros D. unfold false_value. destruct D as [| | | | | | |l Dl]; cbn [bare str_of list_of]; try (split; intros H; exact H).
  1, 2, 3: split; (intros [H|[H|[H|[H|[H|(t & H & _)]]]]]; try discriminate H; right; right; right; left; exact H).
  split; (intros [H|[H|[H|[H|[H|(t & H & _)]]]]]; try discriminate H; right; right; right; right; left; injection H as H).
  - destruct l; [reflexivity|discriminate H].
  - rewrite H. reflexivity.
Qed.
Lemma bare_selects vc va vb w vc' va' vb' : data vc' -> bare vc' = vc -> bare va' = va -> bare vb' = vb -> selects vc va vb w ->
  exists w', selects vc' va' vb' w' /\ bare w' = w /\ (data va' -> data vb' -> data w').
Proof.
  intros D <- <- <- [_ H]. pose proof (bare_false _ D) as Hf. destruct H as [[H ->]|[H ->]].
  - exists va'. split; [split; [apply data_term, D|left; split; [intros K; apply H, Hf, K|reflexivity]]|auto].
  - exists vb'. split; [split; [apply data_term, D|right; split; [apply Hf, H|reflexivity]]|auto].
Qed.
Lemma bare_indexed vs l vs' : Forall data vs' -> map bare vs' = vs -> indexed vs l -> exists l', indexed vs' l' /\ map bare l' = l.
Proof.
  intros D E H. destruct H as [a l Hl|a Hl|a b r]; destruct vs' as [|a' [|b' r']]; try discriminate E.
  - injection E as <-. inversion D; subst. destruct H1; try discriminate Hl. cbn in Hl. injection Hl as <-. eexists. split; [apply IX_list; reflexivity|reflexivity].
  - injection E as <-. inversion D; subst. exists [a']. split; [apply IX_one; destruct H1; try reflexivity; discriminate Hl|reflexivity].
  - exists (a' :: b' :: r'). split; [constructor|exact E].
Qed.
Lemma bare_element l z w l' : map bare l' = l -> element l z w -> w <> NNone -> exists w', element l' z w' /\ bare w' = w /\ In w' l'.
Proof.
  intros <- H Hw. destruct H as [i v Hz Hn|i v Hz Hn|Hz]; [| |congruence].
  - rewrite nth_error_map in Hn. destruct (nth_error l' i) as [v'|] eqn:E; [|discriminate Hn]. injection Hn as <-. exists v'.
    split; [eapply EL_from_start; eassumption|]. split; [reflexivity|eapply nth_error_In, E].
  - rewrite <- map_rev, nth_error_map in Hn. destruct (nth_error (rev l') i) as [v'|] eqn:E; [|discriminate Hn]. injection Hn as <-. exists v'.
    split; [eapply EL_from_end; eassumption|]. split; [reflexivity|]. apply in_rev. eapply nth_error_In, E.
Qed.
Lemma bare_names (l : list (text * node)) : names (map bare_binding l) = names l.
Proof. unfold names. rewrite map_map. reflexivity. Qed.
Lemma bare_gives l k v : gives (map bare_binding l) k v -> exists v', gives l k v' /\ bare v' = v.
Proof.
  intros (x & y & E & Hn). apply map_eq_app in E as (x' & r & -> & <- & E). destruct r as [|[k' v'] y']; [discriminate E|].
  cbn in E. injection E as <- <- <-. exists v'. split; [|reflexivity]. exists x', y'. split; [reflexivity|]. rewrite bare_names in Hn. exact Hn.
Qed.
Lemma bare_not_in (l : list (text * node)) k : ~ In k (names (map bare_binding l)) -> ~ In k (names l).
Proof. rewrite bare_names. auto. Qed.
Lemma bare_picks (free free' : text -> Prop) bs ns vals : (forall n, free n -> free' n) -> picks free (map bare_binding bs) ns vals ->
  exists vals', picks free' bs ns vals' /\ map bare_binding vals' = vals.
Proof.
  intros Hf. induction 1 as [|n v r l Hv Hn _ (vals & IH1 & IH2)|n r l Hn _ (vals & IH1 & IH2)].
  - exists []. split; constructor.
  - apply bare_gives in Hv as (v' & Hv & Ev). exists ((n, v') :: vals). split; [constructor; assumption|]. cbn [map]. unfold bare_binding at 1. cbn [fst snd]. rewrite Ev, IH2. reflexivity.
  - exists vals. split; [apply PK_free; auto|exact IH2].
Qed.
Lemma bare_binds nm dflt ps vs bs nm' dflt' vs' : map bare_binding nm' = nm -> map bare_binding dflt' = dflt -> map bare vs' = vs ->
  binds nm dflt ps vs bs -> exists bs', binds nm' dflt' ps vs' bs' /\ map bare_binding bs' = bs.
Proof.
  intros <- <- E H. revert vs' E. induction H as [|p r vs v bs Hg _ IH|p r v vs bs Hn Hv _ IH|r v vs bs Hn _ IH|p r d bs Hn Hd _ IH]; intros vs' E.
  - destruct vs'; [|discriminate E]. exists []. split; constructor.
  - apply bare_gives in Hg as (v' & Hg & Ev). destruct (IH vs' E) as (bs' & B & Eb). exists ((p, v') :: bs'). split; [apply BI_named; assumption|]. cbn [map]. unfold bare_binding at 1. cbn [fst snd]. congruence.
  - destruct vs' as [|v' vs']; [discriminate E|]. injection E as <- E. destruct (IH vs' E) as (bs' & B & Eb). exists ((p, v') :: bs').
    split; [apply BI_positional; [apply bare_not_in, Hn|exact Hv|exact B]|]. cbn [map]. unfold bare_binding at 1. cbn [fst snd]. congruence.
  - destruct vs' as [|v' vs']; [discriminate E|]. destruct (IH [] eq_refl) as (bs' & B & Eb). exists ((lit "__va_args__", NList (v' :: vs')) :: bs').
    split; [apply BI_rest; [apply bare_not_in, Hn|exact B]|]. cbn [map]. unfold bare_binding at 1. cbn [fst snd bare]. rewrite E, Eb. reflexivity.
  - destruct vs'; [|discriminate E]. apply bare_gives in Hd as (d' & Hd & Ed). destruct (IH [] eq_refl) as (bs' & B & Eb). exists ((p, d') :: bs').
    split; [apply BI_default; [apply bare_not_in, Hn|exact Hd|exact B]|]. cbn [map]. unfold bare_binding at 1. cbn [fst snd]. congruence.
Qed.
Lemma bare_written shift xs xs' : map bare xs' = xs -> forall ind vs t vs', Forall data vs' -> map bare vs' = vs ->
  written shift ind xs vs t -> written shift ind xs' vs' t.
Proof.
  intros <-. induction xs' as [|x' xs' IH]; intros ind vs t vs' D <- H; cbn [map] in H; destruct vs' as [|v' vs']; cbn [map] in H.
  - inversion H; subst. constructor.
  - inversion H.
  - inversion H.
  - inversion D as [|? ? D1 D2]; subst. inversion H as [|? ? ? u w r vs t' Ha Hs Hw Hr|? ? ? u r vs t' Ha Hs Hr]; subst.
    + eapply WR_applied; [|apply bare_shown; eassumption|exact Hw|eapply IH; eauto].
      destruct x'; cbn [bare] in Ha; try contradiction Ha; exact Logic.I.
    + eapply WR_other; [|apply bare_shown; eassumption|].
      * intros K. apply Ha. destruct x'; try contradiction K; exact Logic.I.
      * eapply IH; eauto. replace (indent_then ind x') with (indent_then ind (bare x')); [exact Hr|]. destruct x'; reflexivity.
Qed.

Section Run.
Variables (ec : ectx) (parse : text -> M (list node)).
Hypothesis Hbr : e_browse ec = false.
Notation evs := (evals ec parse).
Notation mean := (means ec parse (placed ec)).

(** ** The environment behind definitions *)
Definition constant_for (b : text * entry) (c : text * node) : Prop :=
  fst b = fst c /\ match snd b with EOpen => True | EValue v => data (snd c) /\ bare (snd c) = v | EFunction _ _ _ | ECases _ _ _ _ | EMacro _ _ | EChain _ _ => False end.
Inductive env_for : defs -> env -> Prop :=
| EN_nil : env_for [] []
| EN_values es f g e : Forall2 constant_for es f -> env_for g e -> env_for (es ++ g) (f :: e)
| EN_function n ps dflt body g e c s0 bd x dflt' : env_for g e -> bare x = body -> map bare_binding dflt' = dflt ->
    declares ec parse ([(n, NBound)] :: e) s0 bd ps dflt' -> Forall (fun b => data (snd b)) dflt' -> NoDup ps -> ps <> [] ->
    evs (NLambda bd x) ([(n, NBound)] :: e) s0 c ([(n, NBound)] :: e) s0 -> c <> NBound ->
    env_for ((n, EFunction ps dflt body) :: g) ([(n, c)] :: e)
| EN_cases n p c a b g e s0 xc0 xc xa xb fi po : env_for g e -> bare xc0 = c -> bare xa = a -> bare xb = b -> p <> va_args ->
    evs xc0 ([(p, NBound)] :: [(n, NBound)] :: e) s0 xc ([(p, NBound)] :: [(n, NBound)] :: e) s0 ->
    env_for ((n, ECases p c a b) :: g) ([(n, NLClosure (NApply (NCondClosure xc xa xb) [] [] fi po) [(p, NBound)] [] [])] :: e)
| EN_macro n ps body g e d : env_for g e -> NoDup ps ->
    env_for ((n, EMacro ps body) :: g) ([(n, NMClosure body (no_values ps) d None)] :: e)
| EN_chain n ps body g e c s0 bd x dflt' : env_for g e -> bare x = body -> declares ec parse ([(n, NBound)] :: e) s0 bd ps dflt' -> NoDup ps -> ps <> [] -> ~ In va_args ps ->
    evs (NLambda bd x) ([(n, NBound)] :: e) s0 c ([(n, NBound)] :: e) s0 ->
    env_for ((n, EChain ps body) :: g) ([(n, c)] :: e).
Lemma lookup_cons n c (f : frame) e m : lookup (((n, c) :: f) :: e) m = if teqb m n then Some c else lookup (f :: e) m.
Proof. cbn [lookup dict_get]. destruct (teqb m n) eqn:E; reflexivity. Qed.
Lemma lookup_nil (e : env) m : lookup ([] :: e) m = lookup e m.
Proof. reflexivity. Qed.
Lemma mem_spec n l : mem n l = true <-> In n l.
Proof.
  induction l as [|m l IH]; cbn [mem In]; [split; [discriminate|intros []]|]. rewrite orb_true_iff, IH, teqb_eq.
  split; (intros [H|H]; [left; symmetry; exact H|right; exact H]).
Qed.
Lemma env_free g e : env_for g e -> forall n, ~ In n (names g) -> lookup e n = None.
Proof.
  induction 1 as [|es f g e HF _ IH|n ps dflt body g e c s0 bd x dflt' _ IH Hx Hd Hde Hdd Hn Hp He Hc|n p c a b g e s0 xc0 xc xa xb fi po _ IH Hxc Hxa Hxb Hpv He|n ps body g e d _ IH Hn|n ps body g e c s0 bd x dflt' _ IH Hx Hde Hn Hp Hv He]; intros m Hm; [reflexivity| | | | |].
  - unfold names in Hm. rewrite map_app, in_app_iff in Hm. assert (Hg : ~ In m (names g)) by (intros K; apply Hm; right; exact K).
    assert (Hes : ~ In m (map fst es)) by (intros K; apply Hm; left; exact K). clear Hm.
    induction HF as [|[k x] [k' c] es f [Hk _] _ IHf]; [rewrite lookup_nil; auto|]. cbn [fst] in Hk. subst k'. rewrite lookup_cons.
    cbn [map fst In] in Hes. replace (teqb m k) with false by (symmetry; apply teqb_neq; intros ->; tauto). apply IHf. tauto.
  - rewrite lookup_cons. cbn [names map fst In] in Hm. replace (teqb m n) with false by (symmetry; apply teqb_neq; intros ->; tauto). rewrite lookup_nil. apply IH. tauto.
  - rewrite lookup_cons. cbn [names map fst In] in Hm. replace (teqb m n) with false by (symmetry; apply teqb_neq; intros ->; tauto). rewrite lookup_nil. apply IH. tauto.
  - rewrite lookup_cons. cbn [names map fst In] in Hm. replace (teqb m n) with false by (symmetry; apply teqb_neq; intros ->; tauto). rewrite lookup_nil. apply IH. tauto.
  - rewrite lookup_cons. cbn [names map fst In] in Hm. replace (teqb m n) with false by (symmetry; apply teqb_neq; intros ->; tauto). rewrite lookup_nil. apply IH. tauto.
Qed.
Definition holds (hidden : list text) (e : env) (b : text * node) : Prop := ~ In (fst b) hidden /\ data (snd b) /\ lookup e (fst b) = Some (snd b).
Lemma env_values g e : env_for g e -> forall hidden, exists gs, map bare_binding gs = values_in hidden g /\ Forall (holds hidden e) gs.
Proof.
  induction 1 as [|es f g e HF Hg IH|n ps dflt body g e c s0 bd x dflt' _ IH Hx Hd Hde Hdd Hn Hp He Hc|n p c a b g e s0 xc0 xc xa xb fi po _ IH Hxc Hxa Hxb Hpv He|n ps body g e d _ IH Hn|n ps body g e c s0 bd x dflt' _ IH Hx Hde Hn Hp Hv He]; intros hidden.
  - exists []. split; constructor.
  - revert hidden. induction HF as [|[k x] [k' c] es f [Hk Hx] _ IHf]; intros hidden; [cbn [app]; destruct (IH hidden) as (gs & E & H); exists gs; split; [exact E|exact H]|].
    cbn [fst snd] in *. subst k'. destruct (IHf (k :: hidden)) as (gs & E & H).
    assert (H' : Forall (holds hidden (((k, c) :: f) :: e)) gs).
    { eapply Forall_impl; [|exact H]. intros [m v] (H1 & H2 & H3). cbn [fst snd In] in *. split; [tauto|]. split; [exact H2|].
      cbn [fst snd]. rewrite lookup_cons. replace (teqb m k) with false by (symmetry; apply teqb_neq; intros ->; tauto). exact H3. }
    cbn [app values_in]. destruct x as [|v| | | |]; [|destruct Hx as [Dc Ec]|contradiction|contradiction|contradiction|contradiction]; [exists gs; split; [exact E|exact H']|].
    destruct (mem k hidden) eqn:Em; [exists gs; split; [exact E|exact H']|].
    exists ((k, c) :: gs). split; [cbn [map app]; rewrite E; unfold bare_binding; cbn [fst snd]; rewrite Ec; reflexivity|].
    constructor; [|exact H']. split; [cbn [fst]; intros K; apply mem_spec in K; congruence|]. split; [exact Dc|]. cbn [fst snd]. rewrite lookup_cons, teqb_refl. reflexivity.
  - destruct (IH (n :: hidden)) as (gs & E & H). exists gs. split; [exact E|].
    eapply Forall_impl; [|exact H]. intros [m v] (H1 & H2 & H3). cbn [fst snd In] in *. split; [cbn [fst]; tauto|]. split; [exact H2|].
    cbn [fst snd]. rewrite lookup_cons. replace (teqb m n) with false by (symmetry; apply teqb_neq; intros ->; tauto). exact H3.
  - destruct (IH (n :: hidden)) as (gs & E & H). exists gs. split; [exact E|].
    eapply Forall_impl; [|exact H]. intros [m v] (H1 & H2 & H3). cbn [fst snd In] in *. split; [cbn [fst]; tauto|]. split; [exact H2|].
    cbn [fst snd]. rewrite lookup_cons. replace (teqb m n) with false by (symmetry; apply teqb_neq; intros ->; tauto). exact H3.
  - destruct (IH (n :: hidden)) as (gs & E & H). exists gs. split; [exact E|].
    eapply Forall_impl; [|exact H]. intros [m v] (H1 & H2 & H3). cbn [fst snd In] in *. split; [cbn [fst]; tauto|]. split; [exact H2|].
    cbn [fst snd]. rewrite lookup_cons. replace (teqb m n) with false by (symmetry; apply teqb_neq; intros ->; tauto). exact H3.
  - destruct (IH (n :: hidden)) as (gs & E & H). exists gs. split; [exact E|].
    eapply Forall_impl; [|exact H]. intros [m v] (H1 & H2 & H3). cbn [fst snd In] in *. split; [cbn [fst]; tauto|]. split; [exact H2|].
    cbn [fst snd]. rewrite lookup_cons. replace (teqb m n) with false by (symmetry; apply teqb_neq; intros ->; tauto). exact H3.
Qed.
Lemma gives_holds hidden e gs k v : Forall (holds hidden e) gs -> gives gs k v -> ~ In k hidden /\ data v /\ lookup e k = Some v.
Proof. intros H (x & y & -> & _). apply Forall_app in H as [_ H]. inversion H; subst. assumption. Qed.
Lemma env_function g e : env_for g e -> forall later f ps dflt body before, g = later ++ (f, EFunction ps dflt body) :: before ->
  exists el eb c s0 bd x dflt', e = el ++ [(f, c)] :: eb /\ env_for before eb /\ (forall n, ~ In n (names later) -> unknown el n) /\
    bare x = body /\ map bare_binding dflt' = dflt /\ declares ec parse ([(f, NBound)] :: eb) s0 bd ps dflt' /\ Forall (fun b => data (snd b)) dflt' /\
    NoDup ps /\ ps <> [] /\ evs (NLambda bd x) ([(f, NBound)] :: eb) s0 c ([(f, NBound)] :: eb) s0 /\ c <> NBound.
Proof.
  induction 1 as [|es fr g e HF _ IH|n ps dflt body g e c s0 bd x dflt' Hg IH Hx Hd Hde Hdd Hn Hp He Hc|n p c a b g e s0 xc0 xc xa xb fi po Hg IH Hxc Hxa Hxb Hpv He|n ps body g e d Hg IH Hn|n ps body g e c s0 bd x dflt' Hg IH Hx Hde Hn Hp Hv He]; intros later f qs df bo before E.
  - destruct later; discriminate E.
  - assert (K : exists l', later = es ++ l' /\ g = l' ++ (f, EFunction qs df bo) :: before).
    { clear IH. revert later E. induction HF as [|[k y] [k' c] es fr [Hk Hy] _ IHf]; intros later E; [exists later; auto|].
      destruct later as [|z later]; cbn [app] in E.
      - injection E as _ -> _. destruct Hy.
      - injection E as <- E. destruct (IHf _ E) as (l' & -> & E'). exists l'. auto. }
    destruct K as (l' & -> & E'). destruct (IH _ _ _ _ _ _ E') as (el & eb & c & s0 & bd & x & dflt' & -> & Hb & Hu & R).
    exists (fr :: el), eb, c, s0, bd, x, dflt'. split; [reflexivity|]. split; [exact Hb|]. split; [|exact R].
    intros m Hm. unfold names in Hm. rewrite map_app, in_app_iff in Hm. constructor; [|apply Hu; intros K; apply Hm; right; exact K].
    intros K. apply Hm. left. clear -HF K. induction HF as [|b d es fr [Hk _] _ IHf]; [destruct K|]. cbn [names map In] in *. rewrite Hk. destruct K; auto.
  - destruct later as [|z later]; cbn [app] in E.
    + injection E as <- <- <- <- <-. exists [], e, c, s0, bd, x, dflt'. split; [reflexivity|]. split; [exact Hg|]. split; [constructor|]. repeat (split; [assumption|]). assumption.
    + injection E as <- ->. destruct (IH _ _ _ _ _ _ eq_refl) as (el & eb & c' & s0' & bd' & x' & dflt'' & -> & Hb & Hu & R).
      exists ([(n, c)] :: el), eb, c', s0', bd', x', dflt''. split; [reflexivity|]. split; [exact Hb|]. split; [|exact R].
      intros m Hm. cbn [names map fst In] in Hm. constructor; [|apply Hu; intros K; apply Hm; right; exact K]. intros [K|[]]. apply Hm. left. exact K.
  - destruct later as [|z later]; cbn [app] in E; [discriminate E|].
    injection E as <- ->. destruct (IH _ _ _ _ _ _ eq_refl) as (el & eb & c' & s0' & bd' & x' & dflt'' & -> & Hb & Hu & R).
    eexists ([(n, _)] :: el), eb, c', s0', bd', x', dflt''. split; [reflexivity|]. split; [exact Hb|]. split; [|exact R].
    intros m Hm. cbn [names map fst In] in Hm. constructor; [|apply Hu; intros K; apply Hm; right; exact K]. intros [K|[]]. apply Hm. left. exact K.
  - destruct later as [|z later]; cbn [app] in E; [discriminate E|].
    injection E as <- ->. destruct (IH _ _ _ _ _ _ eq_refl) as (el & eb & c' & s0' & bd' & x' & dflt'' & -> & Hb & Hu & R).
    eexists ([(n, _)] :: el), eb, c', s0', bd', x', dflt''. split; [reflexivity|]. split; [exact Hb|]. split; [|exact R].
    intros m Hm. cbn [names map fst In] in Hm. constructor; [|apply Hu; intros K; apply Hm; right; exact K]. intros [K|[]]. apply Hm. left. exact K.
  - destruct later as [|z later]; cbn [app] in E; [discriminate E|].
    injection E as <- ->. destruct (IH _ _ _ _ _ _ eq_refl) as (el & eb & c' & s0' & bd' & x' & dflt'' & -> & Hb & Hu & R).
    eexists ([(n, _)] :: el), eb, c', s0', bd', x', dflt''. split; [reflexivity|]. split; [exact Hb|]. split; [|exact R].
    intros m Hm. cbn [names map fst In] in Hm. constructor; [|apply Hu; intros K; apply Hm; right; exact K]. intros [K|[]]. apply Hm. left. exact K.
Qed.
Lemma env_cases g e : env_for g e -> forall later f p c a b before, g = later ++ (f, ECases p c a b) :: before ->
  exists el eb s0 xc0 xc xa xb fi po, e = el ++ [(f, NLClosure (NApply (NCondClosure xc xa xb) [] [] fi po) [(p, NBound)] [] [])] :: eb /\ env_for before eb /\
    (forall n, ~ In n (names later) -> unknown el n) /\ bare xc0 = c /\ bare xa = a /\ bare xb = b /\ p <> va_args /\
    evs xc0 ([(p, NBound)] :: [(f, NBound)] :: eb) s0 xc ([(p, NBound)] :: [(f, NBound)] :: eb) s0.
Proof.
  assert (U : forall k (x : node) el later, (forall m, ~ In m (names later) -> unknown el m) -> forall y : entry, forall m, ~ In m (names ((k, y) :: later)) -> unknown ([(k, x)] :: el) m).
  { intros k x el later Hu y m Hm. cbn [names map fst In] in Hm. constructor; [|apply Hu; intros K; apply Hm; right; exact K]. intros [K|[]]. apply Hm. left. exact K. }
  induction 1 as [|es fr g e HF _ IH|n ps dflt body g e c s0 bd x dflt' Hg IH Hx Hd Hde Hdd Hn Hp He Hc|n p c a b g e s0 xc0 xc xa xb fi po Hg IH Hxc Hxa Hxb Hpv He|n ps body g e d Hg IH Hn|n ps body g e c s0 bd x dflt' Hg IH Hx Hde Hn Hp Hv He]; intros later f p1 c1 a1 b1 before E.
  - destruct later; discriminate E.
  - assert (K : exists l', later = es ++ l' /\ g = l' ++ (f, ECases p1 c1 a1 b1) :: before).
    { clear IH. revert later E. induction HF as [|[k y] [k' c] es fr [Hk Hy] _ IHf]; intros later E; [exists later; auto|].
      destruct later as [|z later]; cbn [app] in E.
      - injection E as _ -> _. destruct Hy.
      - injection E as <- E. destruct (IHf _ E) as (l' & -> & E'). exists l'. auto. }
    destruct K as (l' & -> & E'). destruct (IH _ _ _ _ _ _ _ E') as (el & eb & s0 & yc0 & yc & ya & yb & fi1 & po1 & -> & Hb & Hu & R).
    exists (fr :: el), eb, s0, yc0, yc, ya, yb, fi1, po1. split; [reflexivity|]. split; [exact Hb|]. split; [|exact R].
    intros m Hm. unfold names in Hm. rewrite map_app, in_app_iff in Hm. constructor; [|apply Hu; intros K; apply Hm; right; exact K].
    intros K. apply Hm. left. clear -HF K. induction HF as [|z d es fr [Hk _] _ IHf]; [destruct K|]. cbn [names map In] in *. rewrite Hk. destruct K; auto.
  - destruct later as [|z later]; cbn [app] in E; [discriminate E|]. injection E as <- ->.
    destruct (IH _ _ _ _ _ _ _ eq_refl) as (el & eb & s1 & yc0 & yc & ya & yb & fi1 & po1 & -> & Hb & Hu & R).
    exists ([(n, c)] :: el), eb, s1, yc0, yc, ya, yb, fi1, po1. split; [reflexivity|]. split; [exact Hb|]. split; [|exact R]. apply U, Hu.
  - destruct later as [|z later]; cbn [app] in E.
    + injection E as <- <- <- <- <- <-. exists [], e, s0, xc0, xc, xa, xb, fi, po. split; [reflexivity|]. split; [exact Hg|]. split; [constructor|]. repeat (split; [assumption|]). assumption.
    + injection E as <- ->. destruct (IH _ _ _ _ _ _ _ eq_refl) as (el & eb & s1 & yc0 & yc & ya & yb & fi1 & po1 & -> & Hb & Hu & R).
      eexists ([(n, _)] :: el), eb, s1, yc0, yc, ya, yb, fi1, po1. split; [reflexivity|]. split; [exact Hb|]. split; [|exact R]. apply U, Hu.
  - destruct later as [|z later]; cbn [app] in E; [discriminate E|]. injection E as <- ->.
    destruct (IH _ _ _ _ _ _ _ eq_refl) as (el & eb & s1 & yc0 & yc & ya & yb & fi1 & po1 & -> & Hb & Hu & R).
    eexists ([(n, _)] :: el), eb, s1, yc0, yc, ya, yb, fi1, po1. split; [reflexivity|]. split; [exact Hb|]. split; [|exact R]. apply U, Hu.
  - destruct later as [|z later]; cbn [app] in E; [discriminate E|]. injection E as <- ->.
    destruct (IH _ _ _ _ _ _ _ eq_refl) as (el & eb & s1 & yc0 & yc & ya & yb & fi1 & po1 & -> & Hb & Hu & R).
    eexists ([(n, _)] :: el), eb, s1, yc0, yc, ya, yb, fi1, po1. split; [reflexivity|]. split; [exact Hb|]. split; [|exact R]. apply U, Hu.
Qed.
Lemma env_macro g e : env_for g e -> forall later m ps body before, g = later ++ (m, EMacro ps body) :: before -> ~ In m (names later) ->
  NoDup ps /\ exists d, lookup e m = Some (NMClosure body (no_values ps) d None).
Proof.
  induction 1 as [|es f g e HF _ IH|n ps dflt body g e c s0 bd x dflt' _ IH Hx Hd Hde Hdd Hn Hp He Hc|n p c a b g e s0 xc0 xc xa xb fi po _ IH Hxc Hxa Hxb Hpv He|n ps body g e d _ IH Hn|n ps body g e c s0 bd x dflt' _ IH Hx Hde Hn Hp Hv He]; intros later m qs bo before E Hm.
  - destruct later; discriminate E.
  - revert later E Hm. induction HF as [|[k y] [k' c] es fr [Hk Hy] _ IHf]; intros later E Hm; [rewrite lookup_nil; exact (IH _ _ _ _ _ E Hm)|].
    destruct later as [|z later]; cbn [app] in E.
    + injection E as _ -> _. destruct Hy.
    + injection E as <- E. cbn [names map fst In] in Hm. cbn [fst] in Hk. subst k'.
      rewrite lookup_cons. replace (teqb m k) with false by (symmetry; apply teqb_neq; intros ->; tauto). apply (IHf _ E). tauto.
  - destruct later as [|z later]; cbn [app] in E; [discriminate E|]. injection E as <- E. cbn [names map fst In] in Hm.
    rewrite lookup_cons. replace (teqb m n) with false by (symmetry; apply teqb_neq; intros ->; tauto). rewrite lookup_nil. apply (IH _ _ _ _ _ E). tauto.
  - destruct later as [|z later]; cbn [app] in E; [discriminate E|]. injection E as <- E. cbn [names map fst In] in Hm.
    rewrite lookup_cons. replace (teqb m n) with false by (symmetry; apply teqb_neq; intros ->; tauto). rewrite lookup_nil. apply (IH _ _ _ _ _ E). tauto.
  - destruct later as [|z later]; cbn [app] in E.
    + injection E as <- <- <- _. split; [exact Hn|]. exists d. rewrite lookup_cons, teqb_refl. reflexivity.
    + injection E as <- E. cbn [names map fst In] in Hm.
      rewrite lookup_cons. replace (teqb m n) with false by (symmetry; apply teqb_neq; intros ->; tauto). rewrite lookup_nil. apply (IH _ _ _ _ _ E). tauto.
  - destruct later as [|z later]; cbn [app] in E; [discriminate E|]. injection E as <- E. cbn [names map fst In] in Hm.
    rewrite lookup_cons. replace (teqb m n) with false by (symmetry; apply teqb_neq; intros ->; tauto). rewrite lookup_nil. apply (IH _ _ _ _ _ E). tauto.
Qed.
Lemma lookup_app_unknown el e n : unknown el n -> lookup (el ++ e) n = lookup e n.
Proof.
  induction 1 as [|f el Hf _ IH]; [reflexivity|]. cbn [app lookup]. rewrite (proj2 (dict_get_none f n) Hf). exact IH.
Qed.
Lemma lookup_known e n v : lookup e n = Some v -> known e n v.
Proof. apply lookup_split. Qed.

(** ** Parts *)
Lemma evs_list xs vs e s : Forall2 (fun x v => evs x e s v e s) xs vs -> Forall data vs -> evs (NList xs) e s (NList vs) e s.
Proof.
  intros H D. apply list_spec. exists vs. split; [reflexivity|]. induction H as [|x v xs vs Hx _ IH]; [constructor|]. inversion D; subst.
  destruct (contributes_one v (data_one v H1)) as [Hc Hn]. change (v :: vs) with ([v] ++ vs). eapply LE_cons; [exact Hx|exact Hc|]. rewrite Hn. apply IH. assumption.
Qed.
Lemma evs_block xs vs e s : Forall text_part xs -> Forall2 (fun x v => evs x e s v e s) xs vs -> Forall data vs -> forall ind,
  block ec parse ind xs e s (pieces ind xs vs) e s.
Proof.
  intros Hp H. induction H as [|x v xs vs Hx _ IH]; intros D ind; [constructor|]. inversion Hp as [|? ? P1 P2]; subst. inversion D as [|? ? D1 D2]; subst.
  replace (pieces ind (x :: xs) (v :: vs)) with (as_applied ind x v :: pieces (indent_then ind x) xs vs).
  - eapply BL_value; [destruct x; try contradiction P1; discriminate|exact Hx|apply shape_piece, data_shape, D1|apply IH; assumption].
  - rewrite as_applied_is. cbn [pieces]. destruct x; reflexivity.
Qed.
Lemma evs_text xs vs e s ind t sq q : Forall text_part xs -> Forall2 (fun x v => evs x e s v e s) xs vs -> Forall data vs ->
  written (placed ec) (IndStr []) xs vs t -> ind = IndStr [] -> evs (NText xs sq q) e s (NRaw t) e s.
Proof.
  intros Hp Hv D Hw ->. assert (K : evs (NT xs (IndStr [])) e s (NRaw t) e s).
  { apply text_spec; [exact Hbr|]. exists (pieces (IndStr []) xs vs). split; [apply evs_block; assumption|].
    assert (Hl : List.length xs = List.length vs) by (clear -Hv; induction Hv; cbn [List.length]; congruence).
    cbn [is_term]. rewrite pieces_term by exact Hl. pose proof (data_term (NList vs) (DA_list vs D)) as Ht. cbn [is_term] in Ht. rewrite Ht.
    f_equal. apply (written_plain ec (placed ec) (placed_trim ec)) in Hw. exact Hw. }
  destruct K as [n K]. exists (S n). exact K.
Qed.
Lemma run_constant t ast : t <> [] -> bare ast = NText (run true t) 0 0 -> constant_text ec parse ast t.
Proof.
  intros Ht E e s. destruct t as [|c t]; [congruence|]. destruct ast; try discriminate E. cbn [bare run] in E. injection E as E.
  destruct l as [|x [|? ?]]; try discriminate E. injection E as E. destruct x; try discriminate E. cbn [bare] in E. injection E as E1 _ ->.
  exists (NRaw (c :: t)). split; [|reflexivity]. match goal with |- evals _ _ (NText ?l _ _) _ _ _ _ _ => eapply (evs_text l l) end; try reflexivity.
  - repeat constructor.
  - constructor; [|constructor]. exists 1%nat. reflexivity.
  - constructor; constructor.
  - rewrite <- (app_nil_r (c :: t)). rewrite <- E1. eapply WR_other; [intros []|apply SH_plain|constructor].
Qed.

Lemma means_evs (free : text -> Prop) bs E v e s : Forall (fun b => data (snd b)) bs -> (forall n, free n -> lookup e n = None) ->
  (forall k w, gives bs k w -> lookup e k = Some w) -> mean free bs E v -> evs (tree E) e s v e s.
Proof.
  intros Hd Hf Hb Hm.
  destruct (all_steps ec parse (placed ec) (placed_trim ec) Hbr free bs) with (s := s) (F := e) (E := E) (v := v) (x := tree E) as (y & H1 & _ & H3); try assumption.
  - intros n w Hn Hg. apply Hb in Hg. rewrite (Hf n Hn) in Hg. discriminate Hg.
  - intros k w Hg. right. apply Hb, Hg.
  - apply res_tree.
  - rewrite <- (H3 Hb). exact H1.
Qed.
Lemma evs_builtin f args vs w e s file pos : unknown e (s_txt f) -> function_gives ec (s_txt f) vs w -> Forall data vs ->
  evs (NList args) e s (NList vs) e s -> evs (NApply (NVar (RList []) f) args [] file pos) e s w e s.
Proof.
  intros Hu (fn & v & Hfn & Hv & ->) D Ha. apply lookup_unknown in Hu.
  assert (Hf : evs (NVar (RList []) f) e s (NBuiltin f) e s).
  { exists 1%nat. cbn [yueval eval_body]. unfold eval_var, ebind, get_env. rewrite Hu. unfold find_builtin, lift_m, bind, get_st, ret. rewrite Hfn. reflexivity. }
  apply evals_fin. apply (apply_fin ec parse _ args [] file pos e s _ e s _ e s _ Hf Ha). split; [discriminate|]. exists O.
  unfold apply_rest. cbn [as_closure named_unexpected]. unfold apply_builtin, find_builtin, ebind, lift_m, bind, get_st, ret. rewrite Hfn.
  unfold apply_function. rewrite (data_term _ (DA_list _ D)). unfold ebind, lift_m. rewrite Hv. reflexivity.
Qed.
Lemma evs_cond c a b vc l w e s : evs c e s vc e s -> selects vc a b l -> evs l e s w e s -> evs (NCond c a b) e s w e s.
Proof. intros Hc Hs Hl. apply evals_fin. apply (cond_selected ec parse c a b e s vc e s l Hc Hs). apply evals_fin, Hl. Qed.
Lemma map_bare_app (xs : list node) (ys : list node) : map bare (xs ++ ys) = map bare xs ++ map bare ys.
Proof. apply map_app. Qed.
Lemma bindings_data (bs : list (text * node)) k v : Forall (fun b => data (snd b)) bs -> gives bs k v -> data v.
Proof. intros H (x & y & -> & _). apply Forall_app in H as [_ H]. inversion H; subst. assumption. Qed.
Lemma bare_variable r x f : bare x = NVar r f -> exists r' f', x = NVar r' f' /\ bare_region r' = r /\ bare_src f' = f.
Proof. destruct x; intros E; try discriminate E. cbn [bare] in E. injection E as E1 E2. eauto. Qed.
Lemma bare_apply x f args named fi po : bare x = NApply f args named fi po -> exists f' args' named' fi' po', x = NApply f' args' named' fi' po' /\
  bare f' = f /\ map bare args' = args /\ map (fun p => (bare_src (fst p), bare (snd p))) named' = named.
Proof. destruct x; intros E; try discriminate E. cbn [bare] in E. injection E as E1 E2 E3 _ _. repeat eexists; eassumption. Qed.
Lemma no_region r : bare_region r = RList [] -> r = RList [].
Proof. destruct r as [|[|a l]]; intros E; try discriminate E. reflexivity. Qed.
Lemma value_bare_text v u : data v -> value_text (bare v) u -> value_text v u.
Proof. intros _. apply bare_value_text. Qed.

Lemma big x e0 s0 v e1 s1 : evs x e0 s0 v e1 s1 -> exists N, forall n, (N <= n)%nat -> yueval ec parse n x e0 s0 = Ok (v, e1, s1).
Proof. intros [N HN]. exists N. intros n Hn. rewrite <- HN. apply yueval_mono; [exact Hn|]. rewrite HN. discriminate. Qed.
(** a function that decides by its parameter *)
Lemma cases_applied fn xc xa xb fi po p x v vc y w u e s file pos :
  evs fn e s (NLClosure (NApply (NCondClosure xc xa xb) [] [] fi po) [(p, NBound)] [] []) e s -> evs x e s v e s -> data v -> p <> va_args ->
  evs xc ([(p, v)] :: e) s vc ([(p, v)] :: e) s -> selects vc xa xb y -> evs y ([(p, v)] :: e) s w ([(p, v)] :: e) s -> data w -> value_text w u ->
  evs (NApply fn [x] [] file pos) e s w e s.
Proof.
  intros Hfn Hx Dv Hp Hc Hs Hy Dw Hu. assert (Hxs : evs (NList [x]) e s (NList [v]) e s) by (apply evs_list; [constructor; [exact Hx|constructor]|constructor; [exact Dv|constructor]]).
  assert (Hb : evs (NLClosure (NApply (NCondClosure xc xa xb) [] [] fi po) [(p, v)] [] []) e s w e s).
  { apply big in Hc as (N1 & Hc). apply big in Hy as (N2 & Hy). destruct (proj2 (proj2 (data_steady ec parse w Dw)) ([(p, v)] :: e) s) as [N3 Hw].
    exists (S (S (S (N1 + N2 + N3)))). cbn [yueval eval_body]. unfold eval_apply. cbn [yueval eval_body]. unfold ebind, in_frame. rewrite Hc by lia. rewrite (proj1 Hs).
    apply selects_if in Hs as Es; [|exact parse]. rewrite <- Es. rewrite Hy by lia.
    rewrite (yueval_mono ec parse N3 (N1 + N2 + N3)) by (try lia; rewrite Hw; discriminate). rewrite Hw.
    destruct Hu; cbn; (destruct (is_bound_spec v) as [->|Hv]; [destruct (data_unbound _ Dv); reflexivity|]); destruct v; try congruence; reflexivity. }
  apply evals_fin. apply (apply_fin ec parse fn [x] [] file pos e s _ e s _ e s _ Hfn Hxs). split; [discriminate|].
  destruct Hb as [N1 Hb]. destruct (proj2 (proj2 (data_steady ec parse v Dv)) e s) as [N2 Hv]. exists (N1 + N2)%nat.
  unfold apply_rest. cbn [as_closure]. unfold apply_closure. cbn [cl_env unassigned]. replace (teqb p va_args) with false by (symmetry; apply teqb_neq, Hp).
  assert (Hone : list_eval_1 (yueval ec parse (N1 + N2)) [v] e s = Ok (Some v, [], e, s)).
  { cbn [list_eval_1]. unfold ebind. rewrite (yueval_mono ec parse N2 (N1 + N2)) by (try lia; rewrite Hv; discriminate). rewrite Hv. destruct Dv; reflexivity. }
  unfold ebind at 1. rewrite Hone. clear Hone. unfold bind_param. cbn [cl_late dict_get cl_env]. unfold ebind at 1, eret at 1.
  assert (Ef : frame_set p v [(p, NBound)] = [(p, v)]) by (unfold frame_set, frame_del; cbn [filter fst]; rewrite teqb_refl; reflexivity).
  rewrite Ef. replace (unassigned [(p, v)]) with (@None text) by (destruct Dv; reflexivity). cbn [cl_node].
  rewrite (yueval_mono ec parse N1 (N1 + N2)) by (try lia; rewrite Hb; discriminate). exact Hb.
Qed.
Lemma data_ready p v : data v -> ~ needs ec p v.
Proof.
  intros H. induction H as [| | | | | | |l HF] using data_nest; intros K; inversion K as [|l0 Kl| | |]; subst.
  clear K. induction Kl as [x l K|x l _ IH]; inversion HF; auto.
Qed.
Lemma needs_waits p free bs E : forall v, mean free bs E v -> needs ec p (bare (tree E)) -> waits ec parse p E.
Proof.
  assert (K : forall l, Forall (fun E => forall v, mean free bs E v -> needs ec p (bare (tree E)) -> waits ec parse p E) l ->
    forall vs, Forall2 (mean free bs) l vs -> Exists (needs ec p) (map bare (map tree l)) -> some_waits ec parse p l).
  { induction 1 as [|E' l HE _ IH]; intros vs H1 H2; inversion H1; subst; [inversion H2|]. cbn [map] in H2. inversion H2; subst; [left; eauto|right; eauto]. }
  induction E using cexp_nest; intros w Hw Hn; cbn [tree bare] in Hn.
  - inversion Hw; subst. destruct (data_ready p (bare w)); [apply data_bare; assumption|exact Hn].
  - inversion Hn; subst. reflexivity.
  - inversion Hw; subst. inversion Hn; subst. cbn [waits]. eapply K; eassumption.
  - inversion Hw; subst. inversion Hn; subst. cbn [waits]. eauto.
  - inversion Hw; subst. inversion Hn; subst. cbn [waits]. eapply K; eassumption.
  - inversion Hw; subst. inversion Hn; subst. cbn [waits]. eapply K; eassumption.
  - inversion Hn; subst. match goal with H : Exists _ [] |- _ => inversion H end.
  - inversion Hn as [| | | |t ns Ht Hns Hin Ea]; subst. cbn [waits]. exists t, ns. split; [|auto]. apply run_constant; [exact Ht|symmetry; assumption].
  - inversion Hn.
  - inversion Hn.
Qed.

(** ** Functions that call others *)
Lemma holds_data hidden e gs : Forall (holds hidden e) gs -> Forall (fun b => data (snd b)) gs.
Proof. intros H. eapply Forall_impl; [|exact H]. intros b (_ & H1 & _). exact H1. Qed.
Lemma names_app {A} (l r : list (text * A)) : names (l ++ r) = names l ++ names r.
Proof. apply map_app. Qed.
Lemma values_mem n g : forall h, In n (names (values_in h g)) <-> exists l v r, g = l ++ (n, EValue v) :: r /\ ~ In n h /\ ~ In n (names l).
Proof.
  induction g as [|[k x] g IH]; intros h; cbn [values_in].
  - split; [intros []|intros (l & v & r & E & _)]. destruct l; discriminate E.
  - rewrite names_app, in_app_iff, IH. split.
    + intros [H|(l & v & r & -> & H1 & H2)].
      * destruct x; try contradiction H. destruct (mem k h) eqn:Em; [contradiction H|]. destruct H as [<-|[]]. exists [], v, g. split; [reflexivity|]. split; [|intros []].
        intros K. apply mem_spec in K. cbn [fst] in K; congruence.
      * exists ((k, x) :: l), v, r. split; [reflexivity|]. cbn [In names map fst] in *. split; [tauto|]. intros [K|K]; tauto.
    + intros (l & v & r & E & H1 & H2). destruct l as [|z l]; cbn [app] in E.
      * injection E as -> -> ->. left. destruct (mem n h) eqn:Em; [apply mem_spec in Em; contradiction|left; reflexivity].
      * injection E as <- ->. right. exists l, v, r. split; [reflexivity|]. cbn [In names map fst] in *. split; [intros [K|K]; tauto|tauto].
Qed.
Lemma values_suffix n l f x r h h' : (forall k, In k (h ++ names l ++ [f]) -> In k h') -> In n (names (values_in h' r)) -> In n (names (values_in h (l ++ (f, x) :: r))).
Proof.
  intros Hh H. apply values_mem in H as (l1 & v & r1 & -> & H1 & H2). apply values_mem. exists (l ++ (f, x) :: l1), v, r1. split; [rewrite <- app_assoc; reflexivity|].
  assert (K : ~ In n (h ++ names l ++ [f])) by (intros K; apply H1, Hh, K). rewrite !in_app_iff in K. cbn [In] in K. split; [tauto|]. rewrite names_app, in_app_iff. cbn [names map fst In]. intros [J|[J|J]]; tauto.
Qed.
Lemma first_one {A} (n : text) (a b : A) l : forall l1 r r1, l ++ (n, a) :: r = l1 ++ (n, b) :: r1 -> ~ In n (names l) -> ~ In n (names l1) -> a = b.
Proof.
  induction l as [|z l IH]; intros [|z1 l1] r r1 E H H1; cbn [app] in E.
  - injection E as -> _. reflexivity.
  - injection E as <- _. exfalso. apply H1. left. reflexivity.
  - injection E as -> _. exfalso. apply H. left. reflexivity.
  - injection E as <- E. eapply IH; [exact E| |]; intros K; [apply H|apply H1]; right; exact K.
Qed.
Fixpoint chain_names (g : defs) : list text := match g with [] => [] | (n, EChain _ _) :: r => n :: chain_names r | _ :: r => chain_names r end.
Lemma chain_names_spec n g : In n (chain_names g) <-> exists l ps body r, g = l ++ (n, EChain ps body) :: r.
Proof.
  induction g as [|[k x] g IH].
  - split; [intros []|intros (l & ps & body & r & E)]. destruct l; discriminate E.
  - assert (K : (exists l ps body r, (k, x) :: g = l ++ (n, EChain ps body) :: r) <-> (k = n /\ exists ps body, x = EChain ps body) \/ exists l ps body r, g = l ++ (n, EChain ps body) :: r).
    { split.
      - intros (l & ps & body & r & E). destruct l as [|z l]; cbn [app] in E; [injection E as -> -> ->; left; eauto|]. injection E as <- ->. right. eauto 6.
      - intros [(-> & ps & body & ->)|(l & ps & body & r & ->)]; [exists [], ps, body, g; reflexivity|]. exists ((k, x) :: l), ps, body, r. reflexivity. }
    rewrite K, <- IH. destruct x; cbn [chain_names In]; try (split; [auto|intros [(_ & ps' & body' & J)|J]; [discriminate J|exact J]]).
    split; [intros [<-|J]; [left; eauto|right; exact J]|intros [[<- _]|J]; auto].
Qed.
Lemma chain_params_in l f ps body r : incl ps (chain_params (l ++ (f, EChain ps body) :: r)).
Proof.
  induction l as [|[k x] l IH]; cbn [app chain_params]; [intros p Hp; apply in_or_app; left; exact Hp|]. destruct x; try exact IH. intros p Hp. apply in_or_app. right. apply IH, Hp.
Qed.
Inductive funs_for (fns K P : list text) : list text -> defs -> list (text * ufun) -> Prop :=
| FF_nil later : funs_for fns K P later [] []
| FF_skip later n x g fs : (forall ps body, x <> EChain ps body) -> funs_for fns K P (later ++ [n]) g fs -> funs_for fns K P later ((n, x) :: g) fs
| FF_chain later n ps body g fs x gs : bare x = body -> map bare_binding gs = values_in (P ++ later ++ [n]) g -> Forall (fun b => data (snd b)) gs ->
    funs_for fns K P (later ++ [n]) g fs -> funs_for fns K P later ((n, EChain ps body) :: g) ((n, Fun ps (read fns K x) gs) :: fs).
Lemma funs_split fns K P later g fs : funs_for fns K P later g fs -> forall l f ps body r, g = l ++ (f, EChain ps body) :: r ->
  exists fl x gs fb, fs = fl ++ (f, Fun ps (read fns K x) gs) :: fb /\ bare x = body /\ map bare_binding gs = values_in (P ++ later ++ names l ++ [f]) r /\
    Forall (fun b => data (snd b)) gs /\ funs_for fns K P (later ++ names l ++ [f]) r fb.
Proof.
  induction 1 as [later|later n x g fs Hx _ IH|later n ps0 body0 g fs x gs Ex Eg Hg HF IH]; intros l f ps body r E.
  - destruct l; discriminate E.
  - destruct l as [|z l]; cbn [app] in E; [injection E as -> -> ->; destruct (Hx ps body eq_refl)|]. injection E as <- ->.
    destruct (IH _ _ _ _ _ eq_refl) as (fl & y & gs & fb & H1 & H2 & H3 & H4 & H5). exists fl, y, gs, fb. cbn [names map fst]. rewrite <- !app_assoc in H3, H5. cbn [app] in H3, H5. auto.
  - destruct l as [|z l]; cbn [app] in E.
    + injection E as -> -> -> ->. exists [], x, gs, fs. cbn [names map app]. auto.
    + injection E as <- ->. destruct (IH _ _ _ _ _ eq_refl) as (fl & y & gs1 & fb & -> & H2 & H3 & H4 & H5). exists ((n, Fun ps0 (read fns K x) gs) :: fl), y, gs1, fb. cbn [names map fst].
      rewrite <- !app_assoc in H3, H5. cbn [app] in H3, H5. auto.
Qed.
Lemma funs_names fns K P later g fs : funs_for fns K P later g fs -> incl (names fs) (chain_names g).
Proof.
  induction 1 as [later|later n x g fs Hx _ IH|later n ps0 body0 g fs x gs Ex Eg Hg HF IH]; cbn [chain_names names map fst].
  - intros k [].
  - destruct x; try exact IH. destruct (Hx _ _ eq_refl).
  - intros k [->|Hk]; [left; reflexivity|right; apply IH, Hk].
Qed.
Lemma env_force fns K P g e : env_for g e -> incl P K -> forall later, incl later K -> incl (names g) K ->
  (forall l f ps body r, g = l ++ (f, EChain ps body) :: r -> ~ In f (later ++ names l) /\ ~ In f P /\ incl ps P) ->
  exists fs, funs_for fns K P later g fs /\
    forall el, (forall n, ~ In n later -> unknown el n) -> in_force ec parse (fun n => ~ In n K) (fun n => In n P) fs (el ++ e).
Proof.
  intros HE HP.
  assert (Skip : forall n x g e (fr : frame), (forall ps body, x <> EChain ps body) -> (forall m, ~ In m [n] -> ~ In m (names fr)) ->
    (forall later, incl later K -> incl (names g) K -> (forall l f ps body r, g = l ++ (f, EChain ps body) :: r -> ~ In f (later ++ names l) /\ ~ In f P /\ incl ps P) ->
      exists fs, funs_for fns K P later g fs /\ forall el, (forall n, ~ In n later -> unknown el n) -> in_force ec parse (fun n => ~ In n K) (fun n => In n P) fs (el ++ e)) ->
    forall later, incl later K -> incl (names ((n, x) :: g)) K -> (forall l f ps body r, (n, x) :: g = l ++ (f, EChain ps body) :: r -> ~ In f (later ++ names l) /\ ~ In f P /\ incl ps P) ->
      exists fs, funs_for fns K P later ((n, x) :: g) fs /\ forall el, (forall n, ~ In n later -> unknown el n) -> in_force ec parse (fun n => ~ In n K) (fun n => In n P) fs (el ++ fr :: e)).
  { clear g e HE. intros n x g e fr Hx Hfr IH later Hl Hn Hc. destruct (IH (later ++ [n])) as (fs & H1 & H2).
    - intros m Hm. apply in_app_iff in Hm as [Hm|[<-|[]]]; [apply Hl, Hm|apply Hn; left; reflexivity].
    - intros m Hm. apply Hn. right. exact Hm.
    - intros l f ps body r ->. destruct (Hc ((n, x) :: l) f ps body r eq_refl) as [C1 C2]. split; [|exact C2]. rewrite <- app_assoc. exact C1.
    - exists fs. split; [constructor; assumption|]. intros el Hel. replace (el ++ fr :: e) with ((el ++ [fr]) ++ e) by (rewrite <- app_assoc; reflexivity). apply H2.
      intros m Hm. rewrite in_app_iff in Hm. apply Forall_app. split; [apply Hel; tauto|]. constructor; [apply Hfr; tauto|constructor]. }
  assert (One : forall n (c : node) m, ~ In m [n] -> ~ In m (names [(n, c)])) by (intros n c m H J; exact (H J)).
  induction HE as [|es f g e HF Hg IH|n ps dflt body g e c s0 bd x dflt' _ IH Hx Hd Hde Hdd Hn Hp He Hc|n p c a b g e s0 xc0 xc xa xb fi po _ IH Hxc Hxa Hxb Hpv He|n ps body g e d _ IH Hn|n ps body g e c s0 bd x dflt' Hg IH Hx Hde Hn Hp Hv He].
  - intros later Hl _ _. exists []. split; [constructor|]. intros el Hel. constructor. intros n Hn. split; [rewrite app_nil_r; apply Hel; intros K0; apply Hn, Hl, K0|]. intros K0. apply Hn, HP, K0.
  - assert (Hes : forall later, incl later K -> incl (names (es ++ g)) K -> (forall l f ps body r, es ++ g = l ++ (f, EChain ps body) :: r -> ~ In f (later ++ names l) /\ ~ In f P /\ incl ps P) ->
      exists fs, funs_for fns K P later (es ++ g) fs /\ forall el, (forall n, ~ In n later -> unknown el n) -> (forall fr : frame, incl (names fr) (later ++ names es) -> in_force ec parse (fun n => ~ In n K) (fun n => In n P) fs (el ++ fr :: e))).
    { clear Hg. induction HF as [|[k y] [k' c] es f [Hk Hy] _ IHf]; intros later Hl Hn Hc.
      - destruct (IH later Hl Hn Hc) as (fs & H1 & H2). exists fs. split; [exact H1|]. intros el Hel fr Hfr. replace (el ++ fr :: e) with ((el ++ [fr]) ++ e) by (rewrite <- app_assoc; reflexivity). apply H2.
        intros m Hm. apply Forall_app. split; [apply Hel, Hm|]. constructor; [|constructor]. intros J. apply Hfr in J. cbn [names map] in J. rewrite app_nil_r in J. contradiction.
      - cbn [fst snd] in *. subst k'. destruct (IHf (later ++ [k])) as (fs & H1 & H2).
        + intros m Hm. apply in_app_iff in Hm as [Hm|[<-|[]]]; [apply Hl, Hm|apply Hn; left; reflexivity].
        + intros m Hm. apply Hn. right. exact Hm.
        + intros l f0 ps body r E. destruct (Hc ((k, y) :: l) f0 ps body r) as [C1 C2]; [cbn [app]; rewrite E; reflexivity|]. split; [|exact C2]. rewrite <- app_assoc. exact C1.
        + exists fs. split; [cbn [app]; constructor; [intros ps body ->; exact Hy|exact H1]|]. intros el Hel fr Hfr. apply H2; [intros m Hm; apply Hel; intros J; apply Hm, in_or_app; left; exact J|].
          intros m Hm. apply Hfr in Hm. cbn [names map fst] in Hm. rewrite <- app_assoc. exact Hm. }
    intros later Hl Hn Hc. destruct (Hes later Hl Hn Hc) as (fs & H1 & H2). exists fs. split; [exact H1|]. intros el Hel. apply H2; [exact Hel|].
    intros m Hm. apply in_or_app. right. clear -HF Hm. induction HF as [|b d es f [Hk _] _ IHf]; [destruct Hm|]. cbn [names map In] in *. rewrite Hk. destruct Hm; auto.
  - apply Skip; [discriminate|apply One|exact IH].
  - apply Skip; [discriminate|apply One|exact IH].
  - apply Skip; [discriminate|apply One|exact IH].
  - intros later Hl Hnk Hc. destruct (IH (later ++ [n])) as (fs & H1 & H2).
    + intros m Hm. apply in_app_iff in Hm as [Hm|[<-|[]]]; [apply Hl, Hm|apply Hnk; left; reflexivity].
    + intros m Hm. apply Hnk. right. exact Hm.
    + intros l f qs bo r ->. destruct (Hc ((n, EChain ps body) :: l) f qs bo r eq_refl) as [C1 C2]. split; [|exact C2]. rewrite <- app_assoc. exact C1.
    + destruct (env_values _ _ Hg (P ++ later ++ [n])) as (gs & Eg & Hh). destruct (Hc [] n ps body g eq_refl) as (C1 & C2 & C3). cbn [names map] in C1. rewrite app_nil_r in C1.
      assert (Hin : forall el, (forall m, ~ In m later -> unknown el m) -> forall v : node, forall m, ~ In m (later ++ [n]) -> unknown (el ++ [[(n, v)]]) m).
      { intros el Hel v m Hm. rewrite in_app_iff in Hm. cbn [In] in Hm. apply Forall_app. split; [apply Hel; tauto|]. constructor; [|constructor]. cbn [names map fst In]. tauto. }
      exists ((n, Fun ps (read fns K x) gs) :: fs). split; [constructor; try assumption; eapply holds_data, Hh|].
      intros el Hel. eapply IF_function with (e0 := [(n, NBound)] :: e) (s0 := s0) (c := c) (bd := bd) (dflt := dflt'); cbn [f_params f_body f_known].
      * apply (H2 [[(n, NBound)]]). apply (Hin []). intros m _. constructor.
      * replace (el ++ [(n, c)] :: e) with ((el ++ [[(n, c)]]) ++ e) by (rewrite <- app_assoc; reflexivity). apply H2, Hin, Hel.
      * eapply Forall_impl; [|exact Hh]. intros [m v] (J1 & J2 & J3). cbn [fst snd] in *. rewrite !in_app_iff in J1. cbn [In] in J1. assert (Hm : m <> n) by (intros ->; tauto).
        assert (T : teqb m n = false) by (apply teqb_neq, Hm). split; [exact J2|]. split; apply lookup_known; [|rewrite lookup_app_unknown by (apply Hel; tauto)]; rewrite lookup_cons, T, lookup_nil; exact J3.
      * exact Hde.
      * rewrite read_tree. exact He.
      * exact Hp.
      * exact Hn.
      * exact Hv.
      * apply Forall_forall. exact C3.
      * exact C2.
      * intros J. apply (funs_names _ _ _ _ _ _ H1), chain_names_spec in J as (l & qs & bo & r & ->). destruct (Hc ((n, EChain ps body) :: l) n qs bo r eq_refl) as [C4 _].
        apply C4. rewrite in_app_iff. right. left. reflexivity.
      * apply lookup_known. rewrite lookup_app_unknown by (apply Hel, C1). rewrite lookup_cons, teqb_refl. reflexivity.
Qed.
Lemma mem_false n l : mem n l = false <-> ~ In n l.
Proof. rewrite <- mem_spec. destruct (mem n l); split; congruence. Qed.
Lemma infix_text_run t ast : t <> [] -> bare ast = NText (run true t) 0 0 -> infix_text ast = t.
Proof.
  intros Ht E. destruct t as [|c t]; [congruence|]. destruct ast; try discriminate E. cbn [bare run] in E. injection E as E.
  destruct l as [|x [|? ?]]; try discriminate E. injection E as E. destruct x; try discriminate E. cbn [bare] in E. injection E as E1 _ _. exact E1.
Qed.
Lemma read_placed fns K x : text_part x -> ~ unplaced (read fns K x).
Proof.
  destruct x; try (intros []; fail); try (intros _ []; fail). intros _. cbn [read]. destruct named; [|intros []].
  destruct x; try (destruct args; intros []; fail). destruct r as [|[|]]; try (destruct args; intros []; fail).
  destruct (mem (s_txt a) fns); [intros []|]. destruct (mem (s_txt a) K); [destruct args; intros []|intros []].
Qed.
Lemma variable_stays a e s : exists fv, evs (NVar (RList []) a) e s fv e s.
Proof.
  destruct (lookup e (s_txt a)) as [v|] eqn:El.
  - eexists. exists 1%nat. cbn [yueval eval_body]. unfold eval_var, ebind, get_env. rewrite El. instantiate (1 := match v with NBound => NVar (RList []) a | _ => v end). destruct v; reflexivity.
  - destruct (e_builtin ec (y_script s) (s_txt a)) as [b|] eqn:Eb.
    + exists (NBuiltin a), 1%nat. cbn [yueval eval_body]. unfold eval_var, ebind, get_env. rewrite El. unfold find_builtin, lift_m, bind, get_st, ret. rewrite Eb. reflexivity.
    + eexists. exists 1%nat. cbn [yueval eval_body]. unfold eval_var, ebind, get_env. rewrite El. unfold find_builtin, lift_m, bind, get_st, ret. rewrite Eb.
      instantiate (1 := if is_special (s_txt a) then NSpecial a else if has_char 45 (s_txt a) then NVar RLate a else NAtom a). destruct (is_special (s_txt a)), (has_char 45 (s_txt a)); reflexivity.
Qed.
Lemma apply_settled a args vs fi po e s w : evs (NList args) e s (NList vs) e s -> Forall data vs -> evs (NApply (NVar (RList []) a) vs [] fi po) e s w e s ->
  evs (NApply (NVar (RList []) a) args [] fi po) e s w e s.
Proof.
  intros Ha Hd H. destruct (variable_stays a e s) as (fv & Hfv). apply evals_fin.
  rewrite (apply_fin ec parse _ args [] fi po e s _ e s _ e s _ Hfv Ha). apply evals_fin in H.
  rewrite (apply_fin ec parse _ vs [] fi po e s _ e s _ e s _ Hfv (proj2 (proj2 (data_steady ec parse _ (DA_list _ Hd))) e s)) in H. exact H.
Qed.
Record setting (fns K P later : list text) (g : defs) (fs : list (text * ufun)) (gs bs' bs : list (text * node)) : Prop := Setting {
  st_funs : funs_for fns K P later g fs;
  st_gs : map bare_binding gs = values_in (P ++ later) g; st_gd : Forall (fun b => data (snd b)) gs;
  st_bs : map bare_binding bs' = bs; st_bd : Forall (fun b => data (snd b)) bs'; st_bn : incl (names bs') P;
  st_known : forall n, In n K <-> In n (P ++ later ++ names g);
  st_fns : forall n, In n fns -> In n K /\ ~ In n P /\ ~ In n (names (values_in (P ++ later) g));
  st_chain : forall l f ps body r, g = l ++ (f, EChain ps body) :: r -> In f fns /\ incl ps P }.
Notation um K P := (umeans ec parse (placed ec) (fun n => ~ In n K) (fun n => In n P)).
Lemma setting_gives fns K P later g fs gs bs' bs n v : setting fns K P later g fs gs bs' bs -> gives (bs ++ values_in (P ++ later) g) n v ->
  exists v', bare v' = v /\ data v' /\ (gives bs' n v' \/ (~ In n P /\ gives gs n v')).
Proof.
  intros St H. rewrite <- (st_bs _ _ _ _ _ _ _ _ _ St), <- (st_gs _ _ _ _ _ _ _ _ _ St), <- map_app in H. apply bare_gives in H as (v' & H & <-). exists v'. split; [reflexivity|].
  apply dict_get_gives in H. rewrite dict_get_app in H. destruct (dict_get n bs') as [u|] eqn:E.
  - injection H as ->. apply dict_get_gives in E. split; [eapply bindings_data; [exact (st_bd _ _ _ _ _ _ _ _ _ St)|exact E]|]. left. exact E.
  - apply dict_get_gives in H. split; [eapply bindings_data; [exact (st_gd _ _ _ _ _ _ _ _ _ St)|exact H]|]. right. split; [|exact H].
    intros J. destruct H as (x & y & Ex & _). assert (Hin : In n (names (values_in (P ++ later) g))).
    { rewrite <- (st_gs _ _ _ _ _ _ _ _ _ St), bare_names, Ex, names_app. apply in_or_app. right. left. reflexivity. }
    apply values_mem in Hin as (l & u & r & _ & Hn & _). apply Hn, in_or_app. left. exact J.
Qed.
Lemma read_data fns K P fs used gs bs : forall x, data x -> um K P fs used gs bs (read fns K x) x.
Proof.
  fix IH 1. intros x D. destruct x; try (inversion D; fail); try (apply UM_value; exact D).
  cbn [read]. apply UM_list. assert (Dl : Forall data l) by (inversion D; assumption). clear D. induction l as [|y l IHl]; cbn [map]; constructor; [apply IH; inversion Dl; assumption|apply IHl; inversion Dl; assumption].
Qed.
Lemma read_show fns K P later g fs gs bs' bs used x v u fi po : setting fns K P later g fs gs bs' bs -> um K P fs used gs bs' (read fns K x) v -> value_text v u ->
  um K P fs used gs bs' (read fns K (NApply x [] [] fi po)) v.
Proof.
  intros St D Hu. assert (S : um K P fs used gs bs' (UShow (read fns K x) fi po) v) by (eapply UM_show; eassumption).
  destruct x; try exact S. destruct r as [|[|]]; try exact S.
  assert (Ha : In (s_txt a) K /\ ~ In (s_txt a) fns).
  { cbn [read] in D. assert (J : In (s_txt a) P \/ In (s_txt a) (names (values_in (P ++ later) g))).
    { inversion D; subst.
      - left. apply (st_bn _ _ _ _ _ _ _ _ _ St). eapply gives_in. eassumption.
      - right. rewrite <- (st_gs _ _ _ _ _ _ _ _ _ St), bare_names. eapply gives_in. eassumption. }
    split.
    - apply (st_known _ _ _ _ _ _ _ _ _ St). rewrite !in_app_iff. destruct J as [J|J]; [left; exact J|]. apply values_mem in J as (l & v0 & r & -> & _ & _). right. right. rewrite names_app. apply in_or_app. right. left. reflexivity.
    - intros Hf. apply (st_fns _ _ _ _ _ _ _ _ _ St) in Hf as (_ & F1 & F2). tauto. }
  destruct Ha as [Ha1 Ha2]. cbn [read] in *. replace (mem (s_txt a) fns) with false; [|symmetry; destruct (mem (s_txt a) fns) eqn:E; [apply mem_spec in E; contradiction|reflexivity]].
  apply mem_spec in Ha1. rewrite Ha1. exact S.
Qed.
Lemma setting_picks fns K P later g fs gs bs' bs ns vals : setting fns K P later g fs gs bs' bs -> picks (free_at (InChain P later [] g bs)) (bs ++ values_in (P ++ later) g) ns vals ->
  exists vals', upicks (fun n => ~ In n K) (fun n => In n P) gs bs' ns vals' /\ map bare_binding vals' = vals.
Proof.
  intros St. induction 1 as [|n v r l Hg Hn _ (l' & IH1 & IH2)|n r l Hf _ (l' & IH1 & IH2)].
  - exists []. split; constructor.
  - destruct (setting_gives _ _ _ _ _ _ _ _ _ _ _ St Hg) as (v' & <- & Dv & [J|[J1 J2]]); exists ((n, v') :: l'); (split; [|cbn [map]; rewrite IH2; reflexivity]).
    + apply UP_parameter; assumption.
    + apply UP_known; assumption.
  - exists l'. split; [|exact IH2]. apply UP_free; [|exact IH1]. intros J. apply (st_known _ _ _ _ _ _ _ _ _ St) in J. exact (Hf J).
Qed.
Lemma setting_inside fns K P later g fs gs bs' bs l f ps body r ps' vs' : setting fns K P later g fs gs bs' bs -> g = l ++ (f, EChain ps body) :: r -> Forall data vs' -> ps' = ps ->
  exists fl x gs1 fb, fs = fl ++ (f, Fun ps (read fns K x) gs1) :: fb /\ bare x = body /\ setting fns K P (later ++ names l ++ [f]) r fb gs1 (combine ps' vs') (combine ps' (map bare vs')).
Proof.
  intros St E Hd ->. destruct (funs_split _ _ _ _ _ _ (st_funs _ _ _ _ _ _ _ _ _ St) _ _ _ _ _ E) as (fl & x & gs1 & fb & H1 & H2 & H3 & H4 & H5).
  exists fl, x, gs1, fb. split; [exact H1|]. split; [exact H2|]. constructor; try assumption.
  - clear. revert vs'. induction ps as [|p ps IH]; intros [|v vs']; cbn [combine map]; [reflexivity..|]. rewrite IH. reflexivity.
  - clear -Hd. revert ps. induction Hd as [|v vs' Hv _ IH]; intros [|p ps]; cbn [combine]; constructor; [exact Hv|apply IH].
  - intros p Hp. apply (proj2 (st_chain _ _ _ _ _ _ _ _ _ St _ _ _ _ _ E)). unfold names in Hp. apply in_map_iff in Hp as ([q v] & <- & Hp). eapply in_combine_l, Hp.
  - intros n. rewrite (st_known _ _ _ _ _ _ _ _ _ St n), E, names_app, !in_app_iff. cbn [names map fst In]. tauto.
  - intros n Hn. destruct (st_fns _ _ _ _ _ _ _ _ _ St n Hn) as (F1 & F2 & F3). split; [exact F1|]. split; [exact F2|]. intros J. apply F3. rewrite E. eapply values_suffix; [|exact J].
    intros k. rewrite !in_app_iff. tauto.
  - intros l1 f1 ps1 body1 r1 E1. apply (st_chain _ _ _ _ _ _ _ _ _ St (l ++ (f, EChain ps body) :: l1) f1 ps1 body1 r1). rewrite E, E1, <- app_assoc. reflexivity.
Qed.

(** ** Values *)
Definition P_value (p : place) (y V : node) : Prop :=
  match p with
  | InText g => forall x e, bare x = y -> env_for g e -> forall s, exists v, evs x e s v e s /\ data v /\ bare v = V
  | InBody known bs => forall x bs' (free : text -> Prop), bare x = y -> map bare_binding bs' = bs -> Forall (fun b => data (snd b)) bs' ->
      (forall n, ~ In n known -> free n) -> exists E v, tree E = x /\ mean free bs' E v /\ data v /\ bare v = V
  | InChain P later used g bs => forall x fns K fs gs bs', bare x = y -> setting fns K P later g fs gs bs' bs ->
      exists v, um K P fs used gs bs' (read fns K x) v /\ data v /\ bare v = V
  end.
Definition P_all (p : place) (ys Vs : list node) : Prop :=
  match p with
  | InText g => forall xs e, map bare xs = ys -> env_for g e -> forall s, exists vs, Forall2 (fun x v => evs x e s v e s) xs vs /\ Forall data vs /\ map bare vs = Vs
  | InBody known bs => forall xs bs' (free : text -> Prop), map bare xs = ys -> map bare_binding bs' = bs -> Forall (fun b => data (snd b)) bs' ->
      (forall n, ~ In n known -> free n) -> exists Es vs, map tree Es = xs /\ Forall2 (mean free bs') Es vs /\ Forall data vs /\ map bare vs = Vs
  | InChain P later used g bs => forall xs fns K fs gs bs', map bare xs = ys -> setting fns K P later g fs gs bs' bs ->
      exists vs, Forall2 (um K P fs used gs bs') (map (read fns K) xs) vs /\ Forall data vs /\ map bare vs = Vs
  end.
Definition P_named (g : defs) (named : list (source * node)) (nm : list (text * node)) : Prop :=
  forall named' e, map (fun p => (bare_src (fst p), bare (snd p))) named' = named -> env_for g e -> forall s,
    exists nm', Forall2 (fun a b => s_txt (fst a) = fst b /\ evs (snd a) e s (snd b) e s) named' nm' /\ Forall (fun b => data (snd b)) nm' /\ map bare_binding nm' = nm.
Definition P_defines (g : defs) (l : lval) (y : node) (es : list (text * entry)) : Prop :=
  forall l' x e, bare_lval l' = l -> bare x = y -> env_for g e -> forall s, NoDup (declared l') /\
    exists v f, evs x (no_values (declared l') :: e) s v (no_values (declared l') :: e) s /\ assigned l' v s f s /\ env_for (es ++ g) (f :: e).
Definition P_parameters (g : defs) (bd : list (list source * source * node)) (ps : list text) (dflt : list (text * node)) : Prop :=
  forall bd' e, map (fun b => (map bare_src (fst (fst b)), bare_src (snd (fst b)), bare (snd b))) bd' = bd -> env_for g e -> forall s,
    exists dflt', declares ec parse e s bd' ps dflt' /\ Forall (fun b => data (snd b)) dflt' /\ map bare_binding dflt' = dflt.

Lemma open_frame (l : list source) : Forall2 constant_for (map (fun a => (s_txt a, EOpen)) l) (no_values (map s_txt l)).
Proof. unfold no_values. rewrite map_map. induction l as [|a l IH]; constructor; [|exact IH]. split; reflexivity. Qed.
Lemma all_runs :
  (forall p y V, value ec p y V -> P_value p y V) /\ (forall p ys Vs, all_values ec p ys Vs -> P_all p ys Vs) /\
  (forall g named nm, named_value ec g named nm -> P_named g named nm) /\ (forall g l y es, defines ec g l y es -> P_defines g l y es) /\
  (forall g bd ps dflt, parameters ec g bd ps dflt -> P_parameters g bd ps dflt).
Proof.
  apply (value_both ec P_value P_all P_named P_defines P_parameters).
  - (* constant *) intros p v [D B]. destruct p; cbn [P_value].
    + intros x e E _ s. pose proof (bare_data _ D _ E) as Dx. exists x. split; [apply (data_steady ec parse x Dx)|auto].
    + intros x bs' free E _ _ _. pose proof (bare_data _ D _ E) as Dx. exists (CValue x), x. split; [reflexivity|]. split; [constructor; exact Dx|auto].
    + intros x fns K fs gs bs' E St. pose proof (bare_data _ D _ E) as Dx. exists x. split; [apply read_data, Dx|auto].
  - (* name *) intros p r a v Hg. destruct p; cbn [P_value values_at] in *.
    + intros x e E He s. apply bare_variable in E as (r' & a' & -> & _ & <-). destruct (env_values g e He []) as (gs & Eg & Hh). rewrite <- Eg in Hg.
      apply bare_gives in Hg as (v' & Hg & <-). destruct (gives_holds _ _ _ _ _ Hh Hg) as (_ & Dv & Hl). exists v'. split; [|auto].
      exists 1%nat. cbn [yueval eval_body]. unfold eval_var, ebind, get_env. cbn [bare_src raw s_txt] in Hl. rewrite Hl. destruct Dv; reflexivity.
    + intros x bs' free E <- Db _. apply bare_variable in E as (r' & a' & -> & _ & <-). apply bare_gives in Hg as (v' & Hg & <-).
      exists (CParam r' a'), v'. split; [reflexivity|]. split; [constructor; exact Hg|]. split; [eapply bindings_data; eassumption|reflexivity].
    + intros x fns K fs gs bs' E St. apply bare_variable in E as (r' & a' & -> & _ & <-). destruct (setting_gives _ _ _ _ _ _ _ _ _ _ _ St Hg) as (v' & Ev & Dv & Hv). exists v'. split; [|auto].
      cbn [read]. destruct Hv as [Hv|[Hp Hv]]; [apply UM_parameter; exact Hv|apply UM_known; assumption].
  - (* atom *) intros g a H1 H2 H3 H4. cbn [P_value]. intros x e E He s. apply bare_variable in E as (r' & a' & -> & Er & <-). apply no_region in Er as ->. cbn [bare_src raw s_txt] in *.
    exists (NAtom a'). split; [|split; [apply DA_atom|cbn [bare]; reflexivity]]. exists 1%nat. cbn [yueval eval_body]. unfold eval_var, ebind, get_env. rewrite (env_free g e He _ H1).
    unfold find_builtin, lift_m, bind, get_st, ret. rewrite H2. destruct (is_special (s_txt a')) eqn:E1.
    + exfalso. apply H3. apply existsb_exists in E1 as (k & K1 & K2). apply teqb_eq in K2. subst k. exact K1.
    + destruct (has_char 45 (s_txt a')) eqn:E2; [|reflexivity]. exfalso. apply H4. unfold has_char in E2. apply existsb_exists in E2 as (k & K1 & K2). apply N.eqb_eq in K2. subst k. exact K1.
  - (* list *) intros p l vs _ IH. destruct p; cbn [P_value P_all] in *.
    + intros x e E He s. destruct x; try discriminate E. cbn [bare] in E. injection E as E. destruct (IH _ _ E He s) as (vs' & H1 & H2 & H3).
      exists (NList vs'). split; [apply evs_list; assumption|]. split; [constructor; exact H2|cbn [bare]; rewrite H3; reflexivity].
    + intros x bs' free E Eb Db Hf. destruct x; try discriminate E. cbn [bare] in E. injection E as E. destruct (IH _ _ _ E Eb Db Hf) as (Es & vs' & T1 & H1 & H2 & H3).
      exists (CList Es), (NList vs'). split; [cbn [tree]; rewrite T1; reflexivity|]. split; [constructor; exact H1|]. split; [constructor; exact H2|cbn [bare]; rewrite H3; reflexivity].
    + intros x fns K fs gs bs' E St. destruct x; try discriminate E. cbn [bare] in E. injection E as E. destruct (IH _ _ _ _ _ _ E St) as (vs' & H1 & H2 & H3).
      exists (NList vs'). split; [cbn [read]; apply UM_list, H1|]. split; [constructor; exact H2|cbn [bare]; rewrite H3; reflexivity].
  - (* conditional *) intros p c a b vc va vb w _ IHc _ IHa _ IHb Hs. destruct p; cbn [P_value] in *.
    + intros x e E He s. destruct x; try discriminate E. cbn [bare] in E. injection E as Ec Ea Eb.
      destruct (IHc _ _ Ec He s) as (vc' & C1 & C2 & C3). destruct (IHa _ _ Ea He s) as (va' & A1 & A2 & A3). destruct (IHb _ _ Eb He s) as (vb' & B1 & B2 & B3).
      destruct (bare_selects _ _ _ _ vc' va' vb' C2 C3 A3 B3 Hs) as (w' & Hs' & Ew & Dw). exists w'. split; [|auto].
      destruct Hs' as [Ht [[Hn ->]|[Hn ->]]]; (eapply evs_cond; [exact C1|split; [exact Ht|]|]).
      * left. split; [exact Hn|reflexivity].
      * exact A1.
      * right. split; [exact Hn|reflexivity].
      * exact B1.
    + intros x bs' free E Eb Db Hf. destruct x; try discriminate E. cbn [bare] in E. injection E as Ec Ea Eb'.
      destruct (IHc _ _ _ Ec Eb Db Hf) as (Xc & vc' & T1 & C1 & C2 & C3). destruct (IHa _ _ _ Ea Eb Db Hf) as (Xa & va' & T2 & A1 & A2 & A3). destruct (IHb _ _ _ Eb' Eb Db Hf) as (Xb & vb' & T3 & B1 & B2 & B3).
      destruct (bare_selects _ _ _ _ vc' va' vb' C2 C3 A3 B3 Hs) as (w' & Hs' & Ew & Dw).
      exists (CCond Xc Xa Xb), w'. split; [cbn [tree]; congruence|]. split; [econstructor; eassumption|auto].
    + intros x fns K fs gs bs' E St. destruct x; try discriminate E. cbn [bare] in E. injection E as Ec Ea Eb'.
      destruct (IHc _ _ _ _ _ _ Ec St) as (vc' & C1 & C2 & C3). destruct (IHa _ _ _ _ _ _ Ea St) as (va' & A1 & A2 & A3). destruct (IHb _ _ _ _ _ _ Eb' St) as (vb' & B1 & B2 & B3).
      destruct (bare_selects _ _ _ _ vc' va' vb' C2 C3 A3 B3 Hs) as (w' & Hs' & Ew & Dw).
      exists w'. split; [cbn [read]; econstructor; eassumption|auto].
  - (* choice *) intros g c a b vc x w _ IHc Hs _ IHx. cbn [P_value] in *. intros z e E He s. destruct z; try discriminate E. cbn [bare] in E. injection E as Ec Ea Eb.
    destruct (IHc _ _ Ec He s) as (vc' & C1 & C2 & C3). destruct (bare_selects _ _ _ _ vc' _ _ C2 C3 Ea Eb Hs) as (x' & Hs' & Ex & _).
    destruct (IHx _ _ Ex He s) as (w' & W1 & W2 & W3). exists w'. split; [eapply evs_cond; eassumption|auto].
  - (* built-in *) intros p f args vs w _ IH Hfr Hb. destruct p; cbn [P_value P_all] in *.
    + intros x e E He s. apply bare_apply in E as (f' & args' & named' & fi & po & -> & Ef & Ea & En). destruct named'; [|discriminate En].
      apply bare_variable in Ef as (r' & a' & -> & Er & <-). apply no_region in Er as ->.
      destruct (IH _ _ Ea He s) as (vs' & H1 & H2 & H3). destruct (Hb vs' H3) as (w' & Hw & Dw & Ew). exists w'. split; [|auto].
      apply evs_builtin with (vs := vs'); [|exact Hw|exact H2|apply evs_list; assumption]. apply lookup_unknown. apply (env_free _ _ He). exact Hfr.
    + intros x bs' free E Eb Db Hf. apply bare_apply in E as (f' & args' & named' & fi & po & -> & Ef & Ea & En). destruct named'; [|discriminate En].
      apply bare_variable in Ef as (r' & a' & -> & Er & <-). apply no_region in Er as ->.
      destruct (IH _ _ _ Ea Eb Db Hf) as (Es & vs' & T1 & H1 & H2 & H3). destruct (Hb vs' H3) as (w' & Hw & Dw & Ew).
      exists (CCall a' Es fi po), w'. split; [cbn [tree]; rewrite T1; reflexivity|]. split; [eapply ME_call; [exact H1|apply Hf, Hfr|exact Hw|exact Dw]|auto].
    + intros x fns K fs gs bs' E St. apply bare_apply in E as (f' & args' & named' & fi & po & -> & Ef & Ea & En). destruct named'; [|discriminate En].
      apply bare_variable in Ef as (r' & a' & -> & Er & <-). apply no_region in Er as ->.
      destruct (IH _ _ _ _ _ _ Ea St) as (vs' & H1 & H2 & H3). destruct (Hb vs' H3) as (w' & Hw & Dw & Ew). exists w'. split; [|auto].
      assert (Hk : ~ In (s_txt a') K) by (intros J; apply (st_known _ _ _ _ _ _ _ _ _ St) in J; exact (Hfr J)).
      assert (Hnf : ~ In (s_txt a') fns) by (intros J; apply Hk; apply (st_fns _ _ _ _ _ _ _ _ _ St _ J)).
      cbn [read]. rewrite (proj2 (mem_false _ _) Hk), (proj2 (mem_false _ _) Hnf). eapply UM_call; [exact H1|exact Hk|exact Hw|exact Dw].
  - (* subscript *) intros p z args vs l w _ IH Hi He Hw. destruct p; cbn [P_value P_all] in *.
    + intros x e E Hen s. apply bare_apply in E as (f' & args' & named' & fi & po & -> & Ef & Ea & En). destruct named'; [|discriminate En]. destruct f'; try discriminate Ef. cbn [bare] in Ef. injection Ef as ->.
      destruct (IH _ _ Ea Hen s) as (vs' & H1 & H2 & H3). destruct (bare_indexed _ _ _ H2 H3 Hi) as (l' & Hi' & El). destruct (bare_element _ _ _ _ El He Hw) as (w' & He' & Ew & Hin).
      assert (Dw : data w'). { clear -Hi' H2 Hin. destruct Hi' as [a l Hl|a Hl|a b r]; [inversion H2 as [|? ? Da _]; subst; destruct Da; try discriminate Hl; injection Hl as <-; rewrite Forall_forall in H; auto| |]; rewrite Forall_forall in H2; apply H2, Hin. }
      exists w'. split; [|auto]. eapply subscript_selects; [exists 1%nat; reflexivity|apply evs_list; eassumption|apply (data_term (NList vs')); constructor; exact H2|exact Hi'|exact He'].
    + intros x bs' free E Eb Db Hf. apply bare_apply in E as (f' & args' & named' & fi & po & -> & Ef & Ea & En). destruct named'; [|discriminate En]. destruct f'; try discriminate Ef. cbn [bare] in Ef. injection Ef as ->.
      destruct (IH _ _ _ Ea Eb Db Hf) as (Es & vs' & T1 & H1 & H2 & H3). destruct (bare_indexed _ _ _ H2 H3 Hi) as (l' & Hi' & El). destruct (bare_element _ _ _ _ El He Hw) as (w' & He' & Ew & Hin).
      assert (Dw : data w'). { clear -Hi' H2 Hin. destruct Hi' as [a l Hl|a Hl|a b r]; [inversion H2 as [|? ? Da _]; subst; destruct Da; try discriminate Hl; injection Hl as <-; rewrite Forall_forall in H; auto| |]; rewrite Forall_forall in H2; apply H2, Hin. }
      exists (CPick z Es fi po), w'. split; [cbn [tree]; rewrite T1; reflexivity|]. split; [eapply ME_pick; eassumption|auto].
    + intros x fns K fs gs bs' E St. apply bare_apply in E as (f' & args' & named' & fi & po & -> & Ef & Ea & En). destruct named'; [|discriminate En]. destruct f'; try discriminate Ef. cbn [bare] in Ef. injection Ef as ->.
      destruct (IH _ _ _ _ _ _ Ea St) as (vs' & H1 & H2 & H3). destruct (bare_indexed _ _ _ H2 H3 Hi) as (l' & Hi' & El). destruct (bare_element _ _ _ _ El He Hw) as (w' & He' & Ew & Hin).
      assert (Dw : data w'). { clear -Hi' H2 Hin. destruct Hi' as [a l Hl|a Hl|a b r]; [inversion H2 as [|? ? Da _]; subst; destruct Da; try discriminate Hl; injection Hl as <-; rewrite Forall_forall in H; auto| |]; rewrite Forall_forall in H2; apply H2, Hin. }
      exists w'. split; [|auto]. cbn [read]. destruct args' as [|y ys]; [inversion H1; subst; inversion Hi'|]. eapply UM_pick; eassumption.
  - (* shown *) intros p y v u _ IH Hu. destruct p; cbn [P_value] in *.
    + intros x e E He s. apply bare_apply in E as (f' & args' & named' & fi & po & -> & Ef & Ea & En). destruct named'; [|discriminate En]. destruct args'; [|discriminate Ea].
      destruct (IH _ _ Ef He s) as (v' & H1 & H2 & <-). exists v'. split; [|auto]. apply apply_value; [exists u; apply bare_value_text, Hu|exact H1].
    + intros x bs' free E Eb Db Hf. apply bare_apply in E as (f' & args' & named' & fi & po & -> & Ef & Ea & En). destruct named'; [|discriminate En]. destruct args'; [|discriminate Ea].
      destruct (IH _ _ _ Ef Eb Db Hf) as (X & v' & T1 & H1 & H2 & <-). exists (CShow X fi po), v'. split; [cbn [tree]; rewrite T1; reflexivity|]. split; [|auto].
      eapply ME_show; [exact H1|apply bare_value_text, Hu].
    + intros x fns K fs gs bs' E St. apply bare_apply in E as (f' & args' & named' & fi & po & -> & Ef & Ea & En). destruct named'; [|discriminate En]. destruct args'; [|discriminate Ea].
      destruct (IH _ _ _ _ _ _ Ef St) as (v' & H1 & H2 & <-). exists v'. split; [|auto]. eapply read_show; [exact St|exact H1|apply bare_value_text, Hu].
  - (* Python *) intros p t ns vals w Ht Hns Hp Hg. destruct p; cbn [P_value free_at values_at known_at] in *.
    + intros x e E He s. destruct x; try discriminate E. cbn [bare] in E. injection E as E. pose proof (run_constant _ _ Ht E) as Hc.
      destruct (env_values g e He []) as (gs & Eg & Hh). rewrite <- Eg in Hp.
      apply bare_picks with (free' := fun n => ~ In n (names g)) in Hp as (vals' & Hp & Ev); [|auto]. destruct (Hg vals' Ev) as (v & Hv & Dv & Ew).
      exists (const_result v). split; [|auto]. match goal with |- evals _ _ (NInfix ?a ?b ?c) _ _ _ _ _ => change (NInfix a b c) with (tree (CInfix a b c)) end.
      apply means_evs with (free := fun n => ~ In n (names g)) (bs := gs).
      * eapply holds_data, Hh.
      * apply (env_free _ _ He).
      * intros k u Hk. apply (gives_holds _ _ _ _ _ Hh Hk).
      * eapply ME_infix; eassumption.
    + intros x bs' free E <- Db Hf. destruct x; try discriminate E. cbn [bare] in E. injection E as E. pose proof (run_constant _ _ Ht E) as Hc.
      apply bare_picks with (free' := free) in Hp as (vals' & Hp & Ev); [|exact Hf]. destruct (Hg vals' Ev) as (v & Hv & Dv & Ew).
      match type of Hc with constant_text _ _ ?a _ => match goal with |- context [NInfix a ?b ?c] => exists (CInfix a b c), (const_result v) end end.
      split; [reflexivity|]. split; [eapply ME_infix; eassumption|auto].
    + intros x fns K fs gs bs' E St. destruct x; try discriminate E. cbn [bare] in E. injection E as E. pose proof (run_constant _ _ Ht E) as Hc.
      destruct (setting_picks _ _ _ _ _ _ _ _ _ _ _ St Hp) as (vals' & Hp' & Ev). destruct (Hg vals' Ev) as (v & Hv & Dv & Ew).
      exists (const_result v). split; [|auto]. cbn [read]. rewrite (infix_text_run _ _ Ht E). eapply UM_infix; eassumption.
  - (* text *) intros p l vs t Hl _ IH Hw. destruct p; cbn [P_value P_all] in *.
    + intros x e E He s. destruct x; try discriminate E. cbn [bare] in E. injection E as E.
      destruct (IH _ _ E He s) as (vs' & H1 & H2 & H3). exists (NRaw t). split; [|split; [constructor|reflexivity]].
      eapply evs_text; [|exact H1|exact H2|eapply bare_written; eassumption|reflexivity].
      rewrite <- E in Hl. rewrite Forall_map in Hl. eapply Forall_impl; [|exact Hl]. intros y Hy. destruct y; try contradiction Hy; exact Hy.
    + intros x bs' free E Eb Db Hf. destruct x; try discriminate E. cbn [bare] in E. injection E as E.
      destruct (IH _ _ _ E Eb Db Hf) as (Es & vs' & T1 & H1 & H2 & H3).
      match goal with |- context [NText _ ?a ?b] => exists (CText Es a b), (NRaw t) end. split; [cbn [tree]; rewrite T1; reflexivity|]. split; [|split; [constructor|reflexivity]].
      eapply ME_text; [exact H1| |rewrite T1; eapply bare_written; eassumption].
      rewrite <- E, <- T1, map_map in Hl. rewrite Forall_map in Hl. eapply Forall_impl; [|exact Hl]. intros X HX HC. destruct X; try contradiction HC. exact HX.
    + intros x fns K fs gs bs' E St. destruct x; try discriminate E. cbn [bare] in E. injection E as E.
      destruct (IH _ _ _ _ _ _ E St) as (vs' & H1 & H2 & H3). exists (NRaw t). split; [|split; [constructor|reflexivity]]. cbn [read]. eapply UM_text; [exact H1| |].
      * rewrite <- E in Hl. rewrite Forall_map in *. eapply Forall_impl; [|exact Hl]. intros y Hy. apply read_placed. destruct y; try contradiction Hy; exact Hy.
      * rewrite map_map. erewrite map_ext; [rewrite map_id|intros y; apply read_tree]. eapply bare_written; eassumption.
  - (* call *) intros g later f ps dflt body before r a args vs named nm bs w Eg Hlf Hf _ IHa _ IHn Hnd Hin Hbs _ IHb. cbn [P_value P_all P_named] in *.
    intros x e E He s. apply bare_apply in E as (f' & args' & named' & fi & po & -> & Ef & Ea & En). apply bare_variable in Ef as (r' & a' & -> & Er & Ea').
    assert (Hfn : s_txt a' = f) by (rewrite <- Hf, <- Ea'; reflexivity). clear Hf Er Ea'.
    destruct (IHa _ _ Ea He s) as (vs' & V1 & V2 & V3). destruct (IHn _ _ En He s) as (nm' & N1 & N2 & N3).
    destruct (env_function _ _ He _ _ _ _ _ _ Eg) as (el & eb & c & s0 & bd & x & dflt' & -> & Hb & Hu & Ex & Ed & Hde & Hdd & Hps & Hpn & Hc & Hcb).
    destruct (bare_binds _ _ _ _ _ nm' dflt' vs' N3 Ed V3 Hbs) as (bs' & B1 & B2).
    destruct (env_values _ _ Hb (ps ++ f :: names later)) as (gs & Eg2 & Hh).
    assert (Hbd : Forall (fun b => data (snd b)) bs').
    { eapply binds_ste; [exact B1|intros _ l; apply DA_list|exact N2|exact Hdd|exact V2]. }
    set (e0 := [(f, NBound)] :: eb) in *. set (e := el ++ [(f, c)] :: eb) in *.
    destruct (IHb x (bs' ++ gs) (outside ps e0 e)) as (X & v & TX & M1 & M2 & M3).
    { exact Ex. } { rewrite map_app, B2, Eg2. reflexivity. } { apply Forall_app. split; [exact Hbd|eapply holds_data, Hh]. }
    { intros n Hn. rewrite in_app_iff in Hn. assert (Hng : ~ In n (names g)) by tauto. split; [tauto|]. split.
      - unfold e0. constructor; [cbn [names map fst In]; intros [<-|[]]|apply lookup_unknown, (env_free _ _ Hb)];
          [apply Hng|intros K; apply Hng]; rewrite Eg; unfold names; rewrite map_app; apply in_or_app; right; [left; reflexivity|right; exact K].
      - apply lookup_unknown. apply (env_free _ _ He), Hng. }
    exists v. split; [|auto]. rewrite <- TX in Hc.
    assert (Hlook : forall n, unknown el n -> lookup e n = lookup ([(f, c)] :: eb) n) by (intros n Hn; apply lookup_app_unknown, Hn).
    eapply any_body with (ps := ps) (vs := vs') (nm := nm') (bs := bs') (gs := gs); try eassumption.
    + exists 1%nat. cbn [yueval eval_body]. unfold eval_var, ebind, get_env. rewrite Hfn, (Hlook f (Hu f Hlf)), lookup_cons, teqb_refl. destruct c; try reflexivity. congruence.
    + apply evs_list; assumption.
    + split; [exact N1|]. split; [rewrite <- (bare_names nm'), N3; exact Hnd|]. eapply Forall_impl; [|exact N2]. intros b Hb'. apply data_steady, Hb'.
    + rewrite <- (bare_names nm'), N3. exact Hin.
    + eapply Forall_impl; [|exact Hh]. intros [n u] (H1 & H2 & H3). cbn [fst snd] in *. rewrite in_app_iff in H1. cbn [In] in H1.
      assert (Hne : n <> f) by (intros ->; tauto). split; [tauto|]. split; [exact H2|]. cbn [fst snd]. split; apply lookup_known.
      * unfold e0. rewrite lookup_cons. replace (teqb n f) with false by (symmetry; apply teqb_neq; exact Hne). exact H3.
      * rewrite Hlook by (apply Hu; tauto). rewrite lookup_cons. replace (teqb n f) with false by (symmetry; apply teqb_neq; exact Hne). exact H3.
  - (* a decision *) intros g later f p c a b before r h x v vc y w u0 Eg Hlf Hf _ IHx _ IHc Hs _ IHy Hu0. cbn [P_value] in *.
    intros x0 e E He s. apply bare_apply in E as (f' & args' & named' & fi & po & -> & Ef & Ea & En). apply bare_variable in Ef as (r' & h' & -> & Er & Eh).
    assert (Hfn : s_txt h' = f) by (rewrite <- Hf, <- Eh; reflexivity). clear Hf Er Eh. destruct named'; [|discriminate En]. clear En.
    destruct args' as [|x' [|? ?]]; try discriminate Ea. injection Ea as Ex.
    destruct (IHx _ _ Ex He s) as (v' & V1 & V2 & V3).
    destruct (env_cases _ _ He _ _ _ _ _ _ _ Eg) as (el & eb & s0 & xc0 & xc & xa & xb & fi' & po' & Ee & Hb & Hu & Exc & Exa & Exb & Hp & Hc).
    destruct (env_values _ _ Hb (p :: f :: names later)) as (gs & Eg2 & Hh).
    set (e0 := [(f, NBound)] :: eb) in *.
    assert (Hlook : forall n, unknown el n -> lookup e n = lookup ([(f, NLClosure (NApply (NCondClosure xc xa xb) [] [] fi' po') [(p, NBound)] [] [])] :: eb) n) by (intros n Hn; rewrite Ee; apply lookup_app_unknown, Hn).
    set (free := fun n => ~ In n (p :: names g)).
    assert (Hfree : forall n, free n -> n <> p /\ lookup e n = None /\ lookup e0 n = None).
    { intros n Hn. unfold free in Hn. cbn [In] in Hn. assert (Hng : ~ In n (names g)) by tauto. split; [intros ->; tauto|]. split; [apply (env_free _ _ He), Hng|].
      assert (Hnf : n <> f) by (intros ->; apply Hng; rewrite Eg; unfold names; rewrite map_app; apply in_or_app; right; left; reflexivity).
      unfold e0. rewrite lookup_cons. replace (teqb n f) with false by (symmetry; apply teqb_neq, Hnf). rewrite lookup_nil. apply (env_free _ _ Hb).
      intros K. apply Hng. rewrite Eg. unfold names. rewrite map_app. apply in_or_app. right. right. exact K. }
    destruct (IHc xc0 ((p, v') :: gs) free) as (X & vc' & TX & M1 & M2 & M3).
    { exact Exc. } { cbn [map]. unfold bare_binding at 1. cbn [fst snd]. rewrite V3, Eg2. reflexivity. } { constructor; [exact V2|eapply holds_data, Hh]. } { intros n Hn. exact Hn. }
    assert (Hd : Forall (fun b0 => data (snd b0)) ((p, v') :: gs)) by (constructor; [exact V2|eapply holds_data, Hh]).
    assert (Hgl : forall k u, gives gs k u -> k <> p /\ lookup e k = Some u /\ lookup e0 k = Some u).
    { intros k u Hk. destruct (gives_holds _ _ _ _ _ Hh Hk) as (H1 & _ & H3). cbn [In] in H1. assert (Hkf : k <> f) by (intros ->; tauto). split; [intros ->; tauto|].
      split; [rewrite Hlook by (apply Hu; tauto)|unfold e0]; rewrite lookup_cons; (replace (teqb k f) with false by (symmetry; apply teqb_neq, Hkf)); exact H3. }
    assert (Hgv : forall k u, gives ((p, v') :: gs) k u -> (k = p /\ u = v') \/ (gives gs k u)).
    { intros k u Hk. apply dict_get_gives in Hk. cbn [dict_get] in Hk. destruct (teqb k p) eqn:Ek; [left; apply teqb_eq in Ek; injection Hk as <-; auto|right; apply dict_get_gives, Hk]. }
    assert (Hnf : forall n u, free n -> ~ gives ((p, v') :: gs) n u).
    { intros n u Hn Hg. destruct (Hfree n Hn) as (F1 & F2 & _). destruct (Hgv _ _ Hg) as [[-> _]|Hg']; [congruence|]. destruct (Hgl _ _ Hg') as (_ & G2 & _). congruence. }
    assert (Hres : res ec parse (placed ec) free ((p, v') :: gs) X xc).
    { destruct (all_steps ec parse (placed ec) (placed_trim ec) Hbr free ((p, v') :: gs)) with (s := s0) (F := [(p, NBound)] :: e0) (E := X) (v := vc') (x := tree X) as (y0 & Y1 & Y2 & _); try assumption.
      - intros k u Hk. destruct (Hgv _ _ Hk) as [[-> ->]|Hk']; [left; rewrite lookup_cons, teqb_refl; reflexivity|right]. destruct (Hgl _ _ Hk') as (G1 & _ & G3).
        rewrite lookup_cons. replace (teqb k p) with false by (symmetry; apply teqb_neq, G1). exact G3.
      - intros n Hn. destruct (Hfree n Hn) as (F1 & _ & F3). rewrite lookup_cons. replace (teqb n p) with false by (symmetry; apply teqb_neq, F1). exact F3.
      - apply res_tree.
      - rewrite TX in Y1. destruct (evals_det _ _ _ _ _ _ _ _ _ _ _ Hc Y1) as (-> & _ & _). exact Y2. }
    assert (Hfull : forall k u, gives ((p, v') :: gs) k u -> lookup ([(p, v')] :: e) k = Some u).
    { intros k u Hk. destruct (Hgv _ _ Hk) as [[-> ->]|Hk']; rewrite lookup_cons; [rewrite teqb_refl; reflexivity|]. destruct (Hgl _ _ Hk') as (G1 & G2 & _).
      replace (teqb k p) with false by (symmetry; apply teqb_neq, G1). exact G2. }
    assert (Hcv : evs xc ([(p, v')] :: e) s vc' ([(p, v')] :: e) s).
    { destruct (all_steps ec parse (placed ec) (placed_trim ec) Hbr free ((p, v') :: gs)) with (s := s) (F := [(p, v')] :: e) (E := X) (v := vc') (x := xc) as (y0 & Y1 & _ & Y3); try assumption.
      - intros k u Hk. right. apply Hfull, Hk.
      - intros n Hn. destruct (Hfree n Hn) as (F1 & F2 & _). rewrite lookup_cons. replace (teqb n p) with false by (symmetry; apply teqb_neq, F1). exact F2.
      - rewrite <- (Y3 Hfull). exact Y1. }
    destruct (bare_selects _ _ _ _ vc' _ _ M2 M3 Exa Exb Hs) as (y' & Hs' & Ey & _).
    destruct (IHy y' ([(p, v')] :: e) Ey) with (s := s) as (w' & W1 & W2 & W3).
    { change ((p, EValue v) :: g) with ([(p, EValue v)] ++ g). apply EN_values; [|exact He]. constructor; [|constructor]. split; [reflexivity|]. split; [exact V2|exact V3]. }
    exists w'. split; [|auto]. apply (cases_applied _ xc xa xb fi' po' p x' v' vc' y' w' u0); try assumption; [|apply value_bare_text; [exact W2|rewrite W3; exact Hu0]].
    exists 1%nat. cbn [yueval eval_body]. unfold eval_var, ebind, get_env. rewrite Hfn, (Hlook f (Hu f Hlf)), lookup_cons, teqb_refl. reflexivity.
  - (* a call of a function that calls others *) intros g later f ps body before a args vs w Eg Hh Hf _ IHa Hl Hch _ IHb. cbn [P_value P_all] in *.
    intros x e E He s. apply bare_apply in E as (f' & args' & named' & fi & po & -> & Ef & Ea & En). destruct named'; [|discriminate En]. clear En.
    apply bare_variable in Ef as (r' & a' & -> & Er & Ea'). apply no_region in Er as ->.
    assert (Hfn : s_txt a' = f) by (rewrite <- Hf, <- Ea'; reflexivity). clear Hf Ea'.
    destruct (IHa _ _ Ea He s) as (vs' & V1 & V2 & V3). set (P := chain_params g) in *. set (K := P ++ names g). set (fns := chain_names g).
    assert (Hch' : forall l f ps body r, g = l ++ (f, EChain ps body) :: r -> ~ In f ([] ++ names l) /\ ~ In f P /\ incl ps P).
    { intros l f0 ps0 body0 r E. destruct (Hh _ _ _ _ _ E) as [J1 J2]. split; [exact J1|]. split; [exact J2|]. unfold P. rewrite E. apply chain_params_in. }
    destruct (env_force fns K P g e He) with (later := @nil text) as (fs & F1 & F2); [intros m Hm; apply in_or_app; left; exact Hm|intros m []|intros m Hm; apply in_or_app; right; exact Hm|exact Hch'|].
    specialize (F2 [] ltac:(constructor)). cbn [app] in F2. destruct (env_values g e He P) as (gs & Eg2 & Hhold).
    assert (St : setting fns K P [] g fs gs [] []).
    { constructor; try assumption; try reflexivity; [rewrite app_nil_r; exact Eg2|eapply holds_data, Hhold|constructor|intros m []| |].
      - intros n Hn. split; [|split].
        + apply in_or_app. right. apply chain_names_spec in Hn as (l & ps0 & body0 & r & ->). rewrite names_app. apply in_or_app. right. left. reflexivity.
        + apply chain_names_spec in Hn as (l & ps0 & body0 & r & E). apply (Hh _ _ _ _ _ E).
        + intros J. apply values_mem in J as (l1 & u & r1 & E1 & _ & J2). apply chain_names_spec in Hn as (l & ps0 & body0 & r & E). destruct (Hh _ _ _ _ _ E) as [J1 _]. rewrite E in E1.
          discriminate (first_one _ _ _ _ _ _ _ E1 J1 J2).
      - intros l f0 ps0 body0 r E. split; [apply chain_names_spec; eauto|]. apply (Hch' _ _ _ _ _ E). }
    destruct (setting_inside _ _ _ _ _ _ _ _ _ later f ps body before ps vs' St Eg V2 eq_refl) as (fl & xb & gs1 & fb & Hfs & Exb & St'). rewrite V3 in St'. cbn [app] in St'.
    destruct (IHb _ _ _ _ _ _ Exb St') as (w' & W1 & W2 & W3). exists w'. split; [|auto].
    assert (Hlen : List.length ps = List.length vs') by (rewrite Hl, <- Ea, map_length; eapply UseFacts3.Forall2_length', V1).
    apply apply_settled with (vs := vs'); [apply evs_list; assumption|exact V2|].
    replace (NApply (NVar (RList []) a') vs' [] fi po) with (utree (UUse a' (map UValue vs') fi po)) by (cbn [utree]; rewrite map_map, map_id; reflexivity).
    eapply (UseFacts4.use_value ec parse (placed ec) (placed_trim ec) Hbr) with (gs := []); [exact F2|constructor|].
    eapply UM_use with (later := fl) (before := fb) (vs := vs') (F := Fun ps (read fns K xb) gs1); cbn [f_params f_body f_known].
    + rewrite Hfn. exact Hfs.
    + clear -V2. induction V2; cbn [map]; constructor; [apply UM_value; assumption|assumption].
    + rewrite map_length. exact Hlen.
    + clear -Hlen. revert vs' Hlen. induction ps as [|p ps IH]; intros [|v vs'] Hlen; try discriminate Hlen; cbn [map]; constructor; [intros []|apply IH; injection Hlen; auto].
    + rewrite Forall_map. apply Forall_forall. intros v _. exact Logic.I.
    + apply read_simple. rewrite Exb. exact Hch.
    + rewrite app_nil_r. exact W1.
  - (* a call in a body *) intros P later used g bs l f ps body before a args vs w Eg Hf _ IHa Hl Hus Hca Hch _ IHb. cbn [P_value P_all] in *.
    intros x fns K fs gs bs' E St. apply bare_apply in E as (f' & args' & named' & fi & po & -> & Ef & Ea & En). destruct named'; [|discriminate En]. clear En.
    apply bare_variable in Ef as (r' & a' & -> & Er & Ea'). apply no_region in Er as ->.
    assert (Hfn : s_txt a' = f) by (rewrite <- Hf, <- Ea'; reflexivity). clear Hf Ea'.
    destruct (IHa _ _ _ _ _ _ Ea St) as (vs' & V1 & V2 & V3).
    destruct (setting_inside _ _ _ _ _ _ _ _ _ l f ps body before ps vs' St Eg V2 eq_refl) as (fl & xb & gs1 & fb & Hfs & Exb & St'). rewrite V3 in St'.
    destruct (IHb _ _ _ _ _ _ Exb St') as (w' & W1 & W2 & W3). exists w'. split; [|auto]. cbn [read].
    assert (Hin : mem (s_txt a') fns = true) by (apply mem_spec; rewrite Hfn; apply (st_chain _ _ _ _ _ _ _ _ _ St _ _ _ _ _ Eg)). rewrite Hin.
    eapply UM_use with (later := fl) (before := fb) (vs := vs') (F := Fun ps (read fns K xb) gs1); cbn [f_params f_body f_known].
    + rewrite Hfn. exact Hfs.
    + exact V1.
    + rewrite map_length, Hl, <- Ea, map_length. reflexivity.
    + rewrite <- Ea in Hus. clear -Hus. revert ps Hus. induction args' as [|y ys IH]; intros ps Hus; cbn [map] in *; inversion Hus as [|p ? qs ? Hp Hr]; subst; constructor.
      * intros J. destruct (Hp J) as (r & b & Ey & Eb). apply bare_variable in Ey as (r' & b' & -> & _ & <-). exact Eb.
      * apply IH, Hr.
    + rewrite <- Ea in Hca. rewrite Forall_map in *. eapply Forall_impl; [|exact Hca]. intros y Hy. apply read_simple, Hy.
    + apply read_simple. rewrite Exb. exact Hch.
    + exact W1.
  - (* let *) intros g l x es y w _ IHd _ IHy. cbn [P_value P_defines] in *. intros x0 e E He s. destruct x0; try discriminate E. cbn [bare] in E. injection E as E1 E2 E3.
    destruct (IHd _ _ _ E1 E2 He s) as (Hn & v & f & H1 & H2 & H3). destruct (IHy _ _ E3 H3 s) as (v' & H4 & H5 & H6). exists v'. split; [|auto].
    eapply let_value; eassumption.
  - intros p. destruct p; cbn [P_all].
    + intros xs e E _ s. apply map_eq_nil in E as ->. exists []. repeat split; constructor.
    + intros xs bs' free E _ _ _. apply map_eq_nil in E as ->. exists [], []. repeat split; constructor.
    + intros xs fns K fs gs bs' E St. apply map_eq_nil in E as ->. exists []. repeat split; constructor.
  - intros p x v l vs _ IHx _ IHl. destruct p; cbn [P_all P_value] in *.
    + intros [|x' xs] e E He s; [discriminate E|]. injection E as E1 E2. destruct (IHx _ _ E1 He s) as (v' & A1 & A2 & A3). destruct (IHl _ _ E2 He s) as (vs' & B1 & B2 & B3).
      exists (v' :: vs'). split; [constructor; assumption|]. split; [constructor; assumption|cbn [map]; congruence].
    + intros [|x' xs] bs' free E Eb Db Hf; [discriminate E|]. injection E as E1 E2. destruct (IHx _ _ _ E1 Eb Db Hf) as (X & v' & T1 & A1 & A2 & A3). destruct (IHl _ _ _ E2 Eb Db Hf) as (Xs & vs' & T2 & B1 & B2 & B3).
      exists (X :: Xs), (v' :: vs'). split; [cbn [map]; congruence|]. split; [constructor; assumption|]. split; [constructor; assumption|cbn [map]; congruence].
    + intros [|x' xs] fns K fs gs bs' E St; [discriminate E|]. injection E as E1 E2. destruct (IHx _ _ _ _ _ _ E1 St) as (v' & A1 & A2 & A3). destruct (IHl _ _ _ _ _ _ E2 St) as (vs' & B1 & B2 & B3).
      exists (v' :: vs'). split; [cbn [map]; constructor; assumption|]. split; [constructor; assumption|cbn [map]; congruence].
  - intros g named' e E _ s. apply map_eq_nil in E as ->. exists []. repeat split; constructor.
  - intros g a x v l nm _ IHx _ IHl. intros [|[a' x'] named'] e E He s; [discriminate E|]. cbn [map fst snd] in E. injection E as E0 E1 E2.
    destruct (IHx _ _ E1 He s) as (v' & A1 & A2 & A3). destruct (IHl _ _ E2 He s) as (nm' & B1 & B2 & B3). exists ((s_txt a', v') :: nm').
    split; [constructor; [split; [reflexivity|exact A1]|exact B1]|]. split; [constructor; assumption|]. cbn [map]. unfold bare_binding at 1. cbn [fst snd]. rewrite <- E0, A3, B3. reflexivity.
  - (* a value *) intros g a x v _ IH. cbn [P_value] in IH. intros l' x' e El Ex He s. destruct l' as [a'|]; [|discriminate El]. injection El as El.
    assert (Ea : s_txt a' = s_txt a) by (rewrite <- El; reflexivity). cbn [declared]. split; [repeat constructor; intros []|].
    destruct (IH x' (no_values [s_txt a'] :: e) Ex) with (s := s) as (v' & H1 & H2 & H3).
    { change ((s_txt a, EOpen) :: g) with ([(s_txt a, EOpen)] ++ g). apply EN_values; [|exact He]. constructor; [split; [symmetry; exact Ea|reflexivity]|constructor]. }
    exists v', [(s_txt a', v')]. split; [exact H1|]. split; [constructor|]. apply EN_values; [|exact He]. constructor; [|constructor]. split; [symmetry; exact Ea|]. split; [exact H2|exact H3].
  - (* several values *) intros g l x vs Hn Hl _ IH. cbn [P_value] in IH. intros l' x' e El Ex He s. destruct l' as [|l']; [discriminate El|]. injection El as El.
    assert (Ea : map s_txt l' = map s_txt l) by (rewrite <- El, map_map; reflexivity). cbn [declared]. split; [rewrite Ea; exact Hn|].
    destruct (IH x' (no_values (map s_txt l') :: e) Ex) with (s := s) as (v' & H1 & H2 & H3).
    { apply EN_values; [|exact He]. rewrite Ea. apply open_frame. }
    destruct v'; try discriminate H3. cbn [bare] in H3. injection H3 as H3. inversion H2 as [| | | | | | |? Dv]; subst. rename l0 into vs'.
    assert (Hl' : List.length (map s_txt l') = List.length vs') by (rewrite !map_length in Hl; rewrite map_length; exact Hl).
    exists (NList vs'), (combine (map s_txt l') vs'). split; [exact H1|]. split.
    + eapply AS_elements; [reflexivity|]. clear -Hl'. revert vs' Hl'. induction (map s_txt l') as [|n ns IH]; intros [|v vs'] Hl'; try discriminate Hl'; [constructor|]. cbn [combine]. constructor. apply IH. injection Hl' as Hl'. exact Hl'.
    + apply EN_values; [|exact He]. rewrite <- Ea. clear -Hl' Dv. revert vs' Hl' Dv. induction (map s_txt l') as [|n ns IH]; intros [|v vs'] Hl' Dv; try discriminate Hl'; [constructor|]. cbn [combine map]. inversion Dv; subst.
      constructor; [split; [reflexivity|split; [assumption|reflexivity]]|]. apply IH; [injection Hl' as Hl'; exact Hl'|assumption].
  - (* a function *) intros g a bd ps dflt body bs w _ IHp Hn Hne Hbn Hbc _ IHb. cbn [P_value] in IHb. intros l' x' e El Ex He s. destruct l' as [a'|]; [|discriminate El]. injection El as El.
    assert (Ea : s_txt a' = s_txt a) by (rewrite <- El; reflexivity). cbn [declared]. split; [repeat constructor; intros []|]. rewrite Ea. clear El.
    destruct x'; try discriminate Ex. cbn [bare] in Ex. injection Ex as Ex1 Ex2. set (n := s_txt a) in *.
    assert (He0 : env_for ((n, EOpen) :: g) (no_values [n] :: e)).
    { change ((n, EOpen) :: g) with ([(n, EOpen)] ++ g). apply EN_values; [|exact He]. constructor; [split; reflexivity|constructor]. }
    destruct (IHp _ _ Ex1 He0 s) as (dflt' & D1 & D2 & D3).
    destruct (env_values _ _ He (ps ++ [n])) as (gs & Eg2 & Hh).
    assert (Hbs : map bare_binding bs = bs).
    { clear -Hbc. induction Hbc as [|[k v] bs [_ Hb] _ IH]; [reflexivity|]. cbn [map]. rewrite IH. unfold bare_binding. cbn [fst snd] in *. rewrite Hb. reflexivity. }
    assert (Hbd : Forall (fun b => data (snd b)) bs) by (eapply Forall_impl; [|exact Hbc]; intros z [H _]; exact H).
    set (e0 := no_values [n] :: e) in *.
    destruct (IHb _ (bs ++ gs) (outside ps e0 e0) Ex2) as (X & v & TX & M1 & M2 & M3).
    { rewrite map_app, Hbs, Eg2. reflexivity. } { apply Forall_app. split; [exact Hbd|eapply holds_data, Hh]. }
    { intros m Hm. rewrite in_app_iff in Hm. cbn [In] in Hm. split; [tauto|]. assert (K : unknown e0 m) by (apply lookup_unknown, (env_free _ _ He0); cbn [names map fst In]; tauto). split; exact K. }
    assert (Hgs : Forall (constant ps e0 e0) gs).
    { eapply Forall_impl; [|exact Hh]. intros [m u] (H1 & H2 & H3). cbn [fst snd] in *. rewrite in_app_iff in H1. cbn [In] in H1.
      assert (Hne' : m <> n) by (intros ->; tauto). split; [tauto|]. split; [exact H2|]. cbn [fst snd].
      assert (K : known e0 m u). { apply lookup_known. unfold e0, no_values. cbn [map]. rewrite lookup_cons. replace (teqb m n) with false by (symmetry; apply teqb_neq; exact Hne'). exact H3. }
      split; exact K. }
    destruct (any_body_defined ec parse e0 s _ ps dflt' X bs gs v e0 Hbr D1 Hn Hne Hbn Hbd Hgs M1) as (c & Hc). rewrite TX in Hc.
    exists c, [(n, c)]. split; [exact Hc|]. split; [rewrite <- Ea; constructor|].
    destruct (lambda_closure ec parse _ _ _ _ _ _ _ _ _ D1 Hn Hne Hc) as (bb & fr & Ec & _).
    eapply EN_function; try eassumption. rewrite Ec. discriminate.
  - (* a decision *) intros g n q c a b v vc Hq1 Hq2 [Dv Bv] Hneed _ IHc. cbn [P_value] in IHc. intros l' x' e El Ex He s. destruct l' as [n'|]; [|discriminate El]. injection El as El.
    assert (En : s_txt n' = s_txt n) by (rewrite <- El; reflexivity). cbn [declared]. split; [repeat constructor; intros []|]. rewrite En. clear El.
    destruct x'; try discriminate Ex. cbn [bare] in Ex. injection Ex as Ex1 Ex2. apply bare_apply in Ex2 as (xf & xs & xn & fi & po & -> & Exf & Exs & Exn). apply map_eq_nil in Exs as ->. destruct xn; [|discriminate Exn]. clear Exn.
    assert (K : exists xc0 xa xb, xf = NCond xc0 xa xb /\ bare xc0 = c /\ bare xa = a /\ bare xb = b) by (destruct xf; try discriminate Exf; cbn [bare] in Exf; injection Exf as Ec Ea Eb; eauto 8).
    destruct K as (xc0 & xa & xb & -> & Ec & Ea & Eb). clear Exf.
    match type of Ex1 with map _ ?l = _ => destruct l as [|[[late q'] d] [|? ?]]; try discriminate Ex1 end. cbn [map fst snd] in Ex1. injection Ex1 as Hl Eq Hd.
    apply map_eq_nil in Hl as ->. destruct d; try discriminate Hd. clear Hd. assert (Eqq : s_txt q' = s_txt q) by (rewrite <- Eq; reflexivity). clear Eq.
    set (m := s_txt n) in *. set (p := s_txt q) in *. set (e0 := no_values [m] :: e) in *. set (F := [(p, NBound)] :: e0).
    assert (He0 : env_for ((m, EOpen) :: g) e0).
    { change ((m, EOpen) :: g) with ([(m, EOpen)] ++ g). apply EN_values; [|exact He]. constructor; [split; reflexivity|constructor]. }
    destruct (env_values _ _ He [p; m]) as (gs & Eg2 & Hh). set (free := fun k => ~ In k (p :: m :: names g)).
    assert (Hd : Forall (fun b0 => data (snd b0)) ((p, v) :: gs)) by (constructor; [exact Dv|eapply holds_data, Hh]).
    destruct (IHc _ ((p, v) :: gs) free Ec) as (X & vc' & TX & M1 & M2 & M3).
    { cbn [map]. unfold bare_binding at 1. cbn [fst snd]. rewrite Bv, Eg2. reflexivity. } { exact Hd. } { intros k Hk. exact Hk. }
    assert (Hfree : forall k, free k -> k <> p /\ lookup e0 k = None).
    { intros k Hk. unfold free in Hk. cbn [In] in Hk. split; [intros ->; tauto|]. apply (env_free _ _ He0). cbn [names map fst In]. tauto. }
    assert (Hgl : forall k u, gives gs k u -> k <> p /\ lookup e0 k = Some u).
    { intros k u Hk. destruct (gives_holds _ _ _ _ _ Hh Hk) as (H1 & _ & H3). cbn [In] in H1. assert (Hkm : k <> m) by (intros ->; tauto). split; [intros ->; tauto|].
      unfold e0, no_values. cbn [map]. rewrite lookup_cons. replace (teqb k m) with false by (symmetry; apply teqb_neq, Hkm). exact H3. }
    assert (Hgv : forall k u, gives ((p, v) :: gs) k u -> (k = p /\ u = v) \/ (gives gs k u)).
    { intros k u Hk. apply dict_get_gives in Hk. cbn [dict_get] in Hk. destruct (teqb k p) eqn:Ek; [left; apply teqb_eq in Ek; injection Hk as <-; auto|right; apply dict_get_gives, Hk]. }
    assert (Hstuck : exists xc, evs (tree X) F s xc F s /\ is_term xc = false).
    { apply (all_stuck ec parse (placed ec) (placed_trim ec) Hbr free ((p, v) :: gs)) with (p := p) (v := vc'); try assumption.
      - intros k u Hk Hg. destruct (Hfree k Hk) as (F1 & F2). destruct (Hgv _ _ Hg) as [[-> _]|Hg']; [congruence|]. destruct (Hgl _ _ Hg') as (_ & G2). congruence.
      - intros k u Hk. unfold F. destruct (Hgv _ _ Hk) as [[-> ->]|Hk']; [left; rewrite lookup_cons, teqb_refl; reflexivity|right]. destruct (Hgl _ _ Hk') as (G1 & G3).
        rewrite lookup_cons. replace (teqb k p) with false by (symmetry; apply teqb_neq, G1). exact G3.
      - intros k Hk. unfold F. destruct (Hfree k Hk) as (F1 & F2). rewrite lookup_cons. replace (teqb k p) with false by (symmetry; apply teqb_neq, F1). exact F2.
      - unfold F. rewrite lookup_cons, teqb_refl. reflexivity.
      - eapply needs_waits; [exact M1|]. rewrite TX, Ec. exact Hneed. }
    destruct Hstuck as (xc & Hxc & Ht). rewrite TX in Hxc.
    assert (Hde : declares ec parse e0 s [([], q', NNone)] [p] []).
    { replace [p] with [param_name q']; [apply DE_plain, DE_end|]. unfold param_name. rewrite Eqq. replace (teqb p (lit "...")) with false by (symmetry; apply teqb_neq, Hq1). reflexivity. }
    eexists. exists [(m, NLClosure (NApply (NCondClosure xc xa xb) [] [] fi po) [(p, NBound)] [] [])]. split; [|split; [rewrite <- En; constructor|]].
    + apply evals_fin. apply (lambda_fin ec parse _ _ _ _ _ _ Hde); [repeat constructor; intros []|]. apply evals_fin. destruct Hxc as [k Hk]. exists (S (S (S k))).
      cbn [yueval eval_body fresh_frame map]. unfold eval_apply. cbn [yueval eval_body]. unfold ebind, in_frame.
      match goal with |- context [yueval ec parse k xc0 ?G s] => change (yueval ec parse k xc0 G s) with (yueval ec parse k xc0 F s) end. rewrite Hk, Ht. reflexivity.
    + cbn [app]. eapply EN_cases; try eassumption.
  - (* a function that calls others *) intros g a bd ps dflt body vs w _ IHp Hn Hne Hva Hlen Hvc Hch Hh _ IHb. cbn [P_value] in IHb. intros l' x' e El Ex He s. destruct l' as [a'|]; [|discriminate El]. injection El as El.
    assert (Ea : s_txt a' = s_txt a) by (rewrite <- El; reflexivity). cbn [declared]. split; [repeat constructor; intros []|]. rewrite Ea. clear El.
    destruct x'; try discriminate Ex. cbn [bare] in Ex. injection Ex as Ex1 Ex2. set (n := s_txt a) in *.
    assert (He0 : env_for ((n, EOpen) :: g) (no_values [n] :: e)).
    { change ((n, EOpen) :: g) with ([(n, EOpen)] ++ g). apply EN_values; [|exact He]. constructor; [split; reflexivity|constructor]. }
    destruct (IHp _ _ Ex1 He0 s) as (dflt' & D1 & D2 & D3).
    set (P := ps ++ chain_params g) in *. set (K := P ++ n :: names g). set (fns := chain_names g).
    assert (Hch' : forall l f qs bo r, g = l ++ (f, EChain qs bo) :: r -> ~ In f ([n] ++ names l) /\ ~ In f P /\ incl qs P).
    { intros l f0 qs bo r E. destruct (Hh ((n, EChain ps body) :: l) f0 qs bo r) as [J1 J2]; [rewrite E; reflexivity|]. split; [exact J1|]. split; [exact J2|].
      intros q Hq. apply in_or_app. right. rewrite E. eapply chain_params_in, Hq. }
    destruct (env_force fns K P g e He) with (later := [n]) as (fs & F1 & F2).
    { intros m Hm. apply in_or_app. left. exact Hm. } { intros m [<-|[]]. apply in_or_app. right. left. reflexivity. } { intros m Hm. apply in_or_app. right. right. exact Hm. } { exact Hch'. }
    set (e0 := no_values [n] :: e) in *.
    assert (F0 : in_force ec parse (fun m => ~ In m K) (fun m => In m P) fs e0).
    { apply (F2 [no_values [n]]). intros m Hm. constructor; [exact Hm|constructor]. }
    destruct (env_values g e He (P ++ [n])) as (gs & Eg2 & Hhold).
    assert (Hvd : Forall data vs) by (eapply Forall_impl; [|exact Hvc]; intros z [J _]; exact J).
    assert (Hvb : map bare vs = vs) by (clear -Hvc; induction Hvc as [|v vs [_ J] _ IH]; cbn [map]; [reflexivity|congruence]).
    assert (St : setting fns K P [n] g fs gs (combine ps vs) (combine ps vs)).
    { constructor; try assumption.
      - eapply holds_data, Hhold.
      - rewrite <- Hvb at 2. clear. revert vs. induction ps as [|p ps IH]; intros [|v vs']; cbn [combine map]; [reflexivity..|]. rewrite IH. reflexivity.
      - clear -Hvd. revert ps. induction Hvd as [|v vs' Hv _ IH]; intros [|p ps]; cbn [combine]; constructor; [exact Hv|apply IH].
      - intros p Hp. apply in_or_app. left. unfold names in Hp. apply in_map_iff in Hp as ([q v] & <- & Hp). eapply in_combine_l, Hp.
      - intros m. reflexivity.
      - intros m Hm. apply chain_names_spec in Hm as (l & qs & bo & r & E). destruct (Hch' _ _ _ _ _ E) as (J1 & J2 & _). split; [|split].
        + apply in_or_app. right. right. rewrite E, names_app. apply in_or_app. right. left. reflexivity.
        + exact J2.
        + intros J. apply values_mem in J as (l1 & u & r1 & E1 & _ & J3). rewrite E in E1. assert (J4 : ~ In m (names l)) by (intros J; apply J1; right; exact J). discriminate (first_one _ _ _ _ _ _ _ E1 J4 J3).
      - intros l f0 qs bo r E. split; [apply chain_names_spec; eauto|]. apply (Hch' _ _ _ _ _ E). }
    destruct (IHb _ _ _ _ _ _ Ex2 St) as (w' & W1 & _ & _).
    destruct (UseFacts4.definition_value ec parse (placed ec) (placed_trim ec) Hbr (fun m => ~ In m K) (fun m => In m P) fs e0 s (Fun ps (read fns K x') gs) b dflt') with (vs := vs) (w := w') as (c & Hc); cbn [f_params f_known f_body]; try assumption.
    { eapply Forall_impl; [|exact Hhold]. intros [m u] (H1 & H2 & H3). cbn [fst snd] in *. rewrite in_app_iff in H1. cbn [In] in H1. assert (Hm : m <> n) by (intros ->; tauto).
      split; [exact H2|]. apply lookup_known. unfold e0, no_values. cbn [map]. rewrite lookup_cons. replace (teqb m n) with false by (symmetry; apply teqb_neq; exact Hm). exact H3. }
    { apply Forall_forall. intros p Hp. apply in_or_app. left. exact Hp. }
    { apply read_simple. rewrite Ex2. exact Hch. }
    cbn [f_body] in Hc. rewrite read_tree in Hc.
    exists c, [(n, c)]. split; [exact Hc|]. split; [rewrite <- Ea; constructor|].
    eapply EN_chain; eassumption.
  - intros g bd' e E _ s. apply map_eq_nil in E as ->. exists []. repeat split; constructor.
  - intros g a bd ps dflt _ IH. intros [|[[late a'] d'] bd'] e E He s; [discriminate E|]. cbn [map fst snd] in E. injection E as E1 E2 E3 E4.
    apply map_eq_nil in E1 as ->. destruct d'; try discriminate E3. destruct (IH _ _ E4 He s) as (dflt' & D1 & D2 & D3). exists dflt'. split; [|auto].
    replace (param_name a) with (param_name a') by (rewrite <- E2; reflexivity). constructor. exact D1.
  - intros g a d v bd ps dflt Hd IHd _ IH. cbn [P_value] in IHd. intros [|[[late a'] d'] bd'] e E He s; [discriminate E|]. cbn [map fst snd] in E. injection E as E1 E2 E3 E4.
    apply map_eq_nil in E1 as ->. destruct (IHd _ _ E3 He s) as (v' & V1 & V2 & V3). destruct (IH _ _ E4 He s) as (dflt' & D1 & D2 & D3). exists ((s_txt a', v') :: dflt').
    split; [|split; [constructor; [exact V2|exact D2]|cbn [map]; unfold bare_binding at 1; cbn [fst snd]; rewrite V3, D3, <- E2; reflexivity]].
    replace (param_name a) with (param_name a') by (rewrite <- E2; reflexivity). apply DE_default; [|exact V1|apply data_steady, V2|exact D1].
    intros ->. cbn [bare] in E3. subst d. inversion Hd; subst. match goal with H : constant_value NNone |- _ => destruct H as [H _]; inversion H end.
Qed.

(** ** Pages *)
Lemma cut_front cut t w : front_cut ec cut t w -> w = if e_trim ec && cut then lstrip t else t.
Proof.
  unfold front_cut. destruct (e_trim ec && cut); [|auto]. intros (g & -> & Hg & Hw). induction Hg as [|c g Hc _ IH]; cbn [app].
  - destruct w as [|c w]; [reflexivity|]. cbn [lstrip]. destruct (py_isspace c) eqn:E; [|reflexivity]. exfalso. apply Hw. exact E.
  - cbn [lstrip]. unfold python_space in Hc. rewrite Hc. exact IH.
Qed.
Lemma bare_trimmed ind l : map bare (trimmed_next ind l) = trimmed_next ind (map bare l).
Proof. destruct ind; try reflexivity. destruct l as [|x l]; [reflexivity|]. destruct x; reflexivity. Qed.
Definition fed (s : yst) : feedback := Feedback (y_fb_output s) (y_fb_repeat s).
Lemma defined_names g l y es : defines ec g l y es -> names es = declared l.
Proof.
  intros H. inversion H; subst; cbn [declared names map fst]; try reflexivity. clear H H2. revert vs H1. unfold names. induction l0 as [|a l IH]; intros [|v vs] H; try discriminate H; [reflexivity|].
  cbn [map combine fst]. f_equal. apply IH. inversion H0; assumption. injection H as H. exact H.
Qed.
Lemma data_comment v : data v -> v <> NComment.
Proof. intros []; discriminate. Qed.
Lemma scope_rest r ind f e s t ws s' : block ec parse ind r (f :: e) s ws (f :: e) s' -> forallb is_term ws = true -> List.concat (map (plain ec) ws) = t ->
  evs (NSetClosure (NT r ind) f) e s (NRaw t) e s'.
Proof.
  intros B1 B2 B3. assert (K : evs (NT r ind) (f :: e) s (NRaw t) (f :: e) s').
  { apply text_spec; [exact Hbr|]. exists ws. split; [exact B1|]. cbn [is_term]. rewrite B2. cbn [plain]. rewrite B3. reflexivity. }
  destruct K as [n K]. exists (S n). cbn [yueval eval_body]. unfold ebind, in_frame.
  match goal with |- context [yueval ec parse n ?a ?b ?c] => replace (yueval ec parse n a b c) with (Ok (NRaw t, f :: e, s')) by (symmetry; exact K) end. reflexivity.
Qed.
End Run.
