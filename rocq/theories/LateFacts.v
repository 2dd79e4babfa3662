(** Late-bound parameters (proofs only). *)
From Coq Require Import String List NArith ZArith Bool Lia ZifyBool ZifyNat ZifyN.
From Verif Require Import PyStr Ast Lex Parse Final Eval PyStrFacts EnvSpec EnvFacts EvalSpec EvalMono EvalKeep EvalPure EvalFacts EvalFacts2 EvalFacts3 EvalFacts4 ApplyFacts ApplyFacts2 ApplyFacts3 CoreSpec CoreFacts CoreFacts2 LateSpec.
Import ListNotations.
Open Scope list_scope.

Lemma only_late_fits ec parse ks E : only_late ec parse ks E -> fits ec parse (fun n => In n ks) E.
Proof.
  assert (K : forall l, Forall (fun E => only_late ec parse ks E -> fits ec parse (fun n => In n ks) E) l ->
    (fix all l := match l with [] => True | E :: r => only_late ec parse ks E /\ all r end) l -> all_fit ec parse (fun n => In n ks) l).
  { induction 1 as [|E0 l HE _ IH]; [intros _; exact Logic.I|]. intros [H1 H2]. split; auto. }
  induction E using cexp_nest; intros Hl; try exact Hl; try exact Logic.I; try (apply K; assumption).
  - destruct Hl as (H1 & H2 & H3). repeat split; auto.
  - apply IHE, Hl.
Qed.

Section Late.
Variables (ec : ectx) (parse : text -> M (list node)).
Notation ev := (yueval ec parse).
Notation evs := (evals ec parse).
Variable shift : text -> text -> text -> Prop.
Hypothesis Hshift : forall i u w, shift i u w -> w = trim (e_trim ec) i u.
Hypothesis Hbr : e_browse ec = false.
Lemma list_map_evs (f g : list node -> node) l e s : (forall r, In r l -> evs (f r) e s (g r) e s) -> (forall r, In r l -> one_element (g r)) ->
  evs (NList (map f l)) e s (NList (map g l)) e s.
Proof.
  intros H H1. apply list_spec. exists (map g l). split; [reflexivity|]. induction l as [|r l IH]; [constructor|]. cbn [map].
  destruct (contributes_one (g r)) as [Hc Hn]; [apply H1; left; reflexivity|]. change (g r :: map g l) with ([g r] ++ map g l).
  eapply LE_cons; [apply H; left; reflexivity|exact Hc|]. rewrite Hn. apply IH; intros; [apply H|apply H1]; right; assumption.
Qed.
Lemma row_evs row e s : Forall data row -> evs (NList row) e s (NList row) e s.
Proof. intros H. apply steady_list. eapply Forall_impl; [|exact H]. intros v. apply data_steady. Qed.
Lemma late_frame ks : NoDup ks -> fold_left (fun f k => frame_set k NBound f) ks [] = fresh_frame ks.
Proof.
  intros H. assert (K : forall f, (forall k, In k ks -> ~ In k (names f)) -> fold_left (fun f k => frame_set k NBound f) ks f = f ++ fresh_frame ks).
  { induction H as [|k ks Hk Hn IH]; intros f Hf; [symmetry; apply app_nil_r|]. cbn [fold_left]. rewrite frame_set_fresh by (apply Hf; left; reflexivity).
    rewrite IH; [rewrite <- app_assoc; reflexivity|]. intros k' Hk' Hin. unfold names in Hin. rewrite map_app in Hin. apply in_app_or in Hin as [Hin|[<-|[]]].
    - apply (Hf k'); [right; exact Hk'|exact Hin].
    - apply Hk, Hk'. }
  apply K. intros k _ [].
Qed.
Definition row_call (p : source) (row : list node) : node := NApply (NVar (RList []) p) row [] None 0.
Lemma rows_defined ks p rows e0 s0 : ks <> [] -> s_txt p <> lit "..." -> Forall (Forall data) rows ->
  evs (for_rows ks p rows) e0 s0 (NLClosure (NList (map (row_call p) rows)) [(s_txt p, NBound)] [(s_txt p, map s_txt ks)] []) e0 s0.
Proof.
  intros Hk Hp Hr. assert (H : evs (NList (map (row_call p) rows)) ([(s_txt p, NBound)] :: e0) s0 (NList (map (row_call p) rows)) ([(s_txt p, NBound)] :: e0) s0).
  { apply list_map_evs; [|intros r _; exact Logic.I]. intros r Hin. rewrite Forall_forall in Hr. specialize (Hr r Hin).
    assert (Hv : evs (NVar (RList []) p) ([(s_txt p, NBound)] :: e0) s0 (NVar (RList []) p) ([(s_txt p, NBound)] :: e0) s0).
    { exists 1%nat. cbn [yueval eval_body]. unfold eval_var, ebind, get_env. cbn [lookup dict_get]. rewrite teqb_refl. reflexivity. }
    apply evals_fin. apply (apply_fin ec parse _ r [] None 0%Z _ s0 _ _ s0 _ _ s0 _ Hv (row_evs r _ _ Hr)). split; [discriminate|]. exists O. reflexivity. }
  destruct H as [n Hn]. exists (S (S n)). unfold for_rows. cbn [yueval eval_body]. unfold eval_lambda. cbn [lambda_loop]. destruct ks as [|k ks]; [congruence|]. cbn [map dict_set].
  unfold ebind, eret. cbn [map dict_set]. destruct (teqb_spec (s_txt p) (lit "...")); [contradiction|]. cbn [frame_set dict_set]. unfold frame_set. cbn [dict_set].
  cbn [yueval eval_body]. unfold in_frame, ebind. change (fun row : list node => NApply (NVar (RList []) p) row [] None 0%Z) with (row_call p).
  match goal with |- context [yueval ec parse n ?x ?G s0] => change (yueval ec parse n x G s0) with (yueval ec parse n (NList (map (row_call p) rows)) ([(s_txt p, NBound)] :: e0) s0) end. rewrite Hn. reflexivity.
Qed.
Variables (p : source) (ks : list source) (e : env) (s : yst) (gs : list (text * node)) (E : cexp).
Notation kn := (map s_txt ks).
Hypothesis Hks : ks <> [].
Hypothesis Hnd : NoDup kn.
Hypothesis Hpk : ~ In (s_txt p) kn.
Hypothesis Hva : ~ In (lit "__va_args__") kn.
Hypothesis Hun : Forall (unknown e) kn.
Hypothesis Hgs : Forall (given_there (s_txt p) kn e) gs.
Hypothesis Hfit : only_late ec parse kn E.
Notation free := (nowhere (s_txt p) kn e).
Notation bs row := (combine kn row ++ gs).
Notation mean row := (means ec parse shift free (bs row) E).
Lemma gs_data : Forall (fun b => data (snd b)) gs.
Proof. eapply Forall_impl; [|exact Hgs]. intros b (_ & _ & H & _). exact H. Qed.
Lemma gs_there k w : gives gs k w -> lookup e k = Some w /\ k <> s_txt p /\ ~ In k kn.
Proof.
  intros (x & y & Eg & _). rewrite Forall_forall in Hgs. destruct (Hgs (k, w)) as (H1 & H2 & _ & H4); [rewrite Eg; apply in_or_app; right; left; reflexivity|].
  split; [apply known_lookup, H4|]. split; assumption.
Qed.
Lemma row_data row : Forall data row -> Forall (fun b => data (snd b)) (combine kn row).
Proof. intros H. apply Forall_forall. intros [k w] Hin. apply in_combine_r in Hin. rewrite Forall_forall in H. apply H, Hin. Qed.
Lemma bs_all_data row : Forall data row -> Forall (fun b => data (snd b)) (bs row).
Proof. intros H. apply Forall_app. split; [apply row_data, H|apply gs_data]. Qed.
Lemma row_names (row : list node) : List.length row = List.length ks -> names (combine kn row) = kn.
Proof. intros H. apply names_combine. rewrite map_length. exact H. Qed.
Lemma free_gives row n v : List.length row = List.length ks -> free n -> ~ gives (bs row) n v.
Proof.
  intros Hl (H1 & H2 & H3) Hg. apply gives_app in Hg as [Hg|[_ Hg]].
  - apply gives_in in Hg. rewrite row_names in Hg by exact Hl. contradiction.
  - destruct (gs_there _ _ Hg) as (Hk & _). rewrite (proj2 (lookup_unknown _ _) H3) in Hk. discriminate Hk.
Qed.
Lemma late_chain row v : List.length row = List.length ks -> Forall data row -> mean row v ->
  exists x1 x2 x3, evs (tree E) e s x1 e s /\ evs x1 e s x2 e s /\ evs x2 (fresh_frame kn :: e) s x3 (fresh_frame kn :: e) s /\
    shape x1 /\ shape x2 /\ res ec parse shift free (bs row) E x3.
Proof.
  intros Hl Hd Hm. pose proof (only_late_fits _ _ _ _ Hfit) as Hf.
  assert (F1 : forall k w, gives (bs row) k w -> lookup e k = Some NBound \/ lookup e k = Some w \/ (In k kn /\ lookup e k = None)).
  { intros k w Hg. apply gives_app in Hg as [Hg|[_ Hg]].
    - right. right. apply gives_in in Hg. rewrite row_names in Hg by exact Hl. split; [exact Hg|]. rewrite Forall_forall in Hun. apply lookup_unknown, Hun, Hg.
    - right. left. apply gs_there, Hg. }
  assert (F2 : forall n, free n -> lookup e n = None) by (intros n (_ & _ & H); apply lookup_unknown, H).
  assert (G1 : forall k w, gives (bs row) k w -> lookup (fresh_frame kn :: e) k = Some NBound \/ lookup (fresh_frame kn :: e) k = Some w \/ (In k kn /\ lookup (fresh_frame kn :: e) k = None)).
  { intros k w Hg. apply gives_app in Hg as [Hg|[_ Hg]].
    - left. apply gives_in in Hg. rewrite row_names in Hg by exact Hl. cbn [lookup]. rewrite (fresh_get kn k Hg). reflexivity.
    - right. left. destruct (gs_there _ _ Hg) as (H1 & _ & H2). cbn [lookup]. rewrite (proj2 (dict_get_none _ _)); [exact H1|]. rewrite names_fresh. exact H2. }
  assert (G2 : forall n, free n -> lookup (fresh_frame kn :: e) n = None).
  { intros n Hn. cbn [lookup]. rewrite (proj2 (dict_get_none _ _)); [apply F2, Hn|]. rewrite names_fresh. apply Hn. }
  destruct (all_steps_late ec parse shift Hshift Hbr free (bs row) (bs_all_data row Hd) (fun n v => free_gives row n v Hl) [] s e _ F1 F2 E Hf v (tree E) Hm (res_tree _ _ _ _ _ E)) as (x1 & A1 & A2 & _).
  destruct (all_steps_late ec parse shift Hshift Hbr free (bs row) (bs_all_data row Hd) (fun n v => free_gives row n v Hl) [] s e _ F1 F2 E Hf v x1 Hm A2) as (x2 & B1 & B2 & _).
  destruct (all_steps_late ec parse shift Hshift Hbr free (bs row) (bs_all_data row Hd) (fun n v => free_gives row n v Hl) [] s (fresh_frame kn :: e) _ G1 G2 E Hf v x2 Hm B2) as (x3 & C1 & C2 & _).
  exists x1, x2, x3. split; [exact A1|]. split; [exact B1|]. split; [exact C1|]. split; [eapply res_shape; [| |exact Hm|exact A2]|split; [eapply res_shape; [| |exact Hm|exact B2]|exact C2]];
    first [apply bs_all_data, Hd|intros n w; apply free_gives, Hl].
Qed.
Lemma binds_combine qs : forall row, List.length row = List.length qs -> ~ In (lit "__va_args__") qs -> binds [] [] qs row (combine qs row).
Proof.
  induction qs as [|q qs IH]; intros [|w row] Hl Hq; try discriminate Hl; [constructor|]. injection Hl as Hl. cbn [combine]. constructor; [intros []|intros ->; apply Hq; left; reflexivity|].
  apply IH; [exact Hl|]. intros H. apply Hq. right. exact H.
Qed.
Lemma row_called row v x3 : let C := NLClosure x3 (fresh_frame kn) [] [] in
  List.length row = List.length ks -> Forall data row -> mean row v -> res ec parse shift free (bs row) E x3 ->
  evs (row_call p row) ([(s_txt p, C)] :: e) s v ([(s_txt p, C)] :: e) s.
Proof.
  intros C Hl Hd Hm Hr. set (e1 := [(s_txt p, C)] :: e). set (bb := combine kn row).
  pose proof (fun v H => data_steady ec parse v H) as Hok.
  assert (Hro : forall q, rest_ok data q) by (intros q _ l; apply DA_list).
  pose proof (row_data row Hd : Forall _ bb) as Hbb. pose proof (row_names row Hl : names bb = kn) as Hkk.
  assert (Hkn : kn <> []) by (destruct ks; [congruence|discriminate]).
  set (B := cbody ec parse shift gs free bb E v).
  assert (St : forall b f0 f, B b f0 -> extends f0 f -> settled data f -> agrees bb f -> exists b', evs b (f :: e1) s b' (f :: e1) s /\ B b' f).
  { apply cbody_step; try assumption.
    - apply gs_data.
    - intros n (_ & H & _). rewrite Hkk. exact H.
    - intros n (H1 & _ & H2). constructor; [|exact H2]. intros [H|[]]. cbn [fst] in H. congruence.
    - intros k w Hg. destruct (gs_there _ _ Hg) as (H1 & H2 & _). unfold e1. cbn [lookup dict_get]. destruct (teqb_spec k (s_txt p)); [contradiction|exact H1]. }
  assert (B0 : B x3 (fresh_frame kn)).
  { destruct (cbody_init ec parse shift gs free bb kn E v) as (_ & I2 & I3 & I4); try assumption.
    - intros n H. apply H.
    - intros n Hn. unfold names in Hn. apply in_map_iff in Hn as (b & <- & Hb). rewrite Forall_forall in Hgs. apply Hgs, Hb.
    - intros Hb. apply Hkn. rewrite <- Hkk, Hb. reflexivity.
    - split; [exact Hr|]. split; [exact I2|]. split; [exact I3|]. intros Hfull. exfalso.
      destruct bb as [|[k w] r] eqn:Eb; [apply Hkn; rewrite <- Hkk; reflexivity|].
      assert (Hg : gives ((k, w) :: r) k w) by (exists [], r; split; [reflexivity|intros []]). specialize (Hfull k w Hg).
      rewrite (fresh_get kn k) in Hfull by (rewrite <- Hkk; left; reflexivity). injection Hfull as <-. inversion Hbb as [|? ? Hx _]. inversion Hx. }
  assert (Hndf : NoDup (names (fresh_frame kn))) by (rewrite names_fresh; exact Hnd).
  destruct (binds_fill ec parse data Hok [] [] kn row bb (fresh_frame kn)) as (fr & Hf & Hu & Hg); try assumption.
  { apply binds_combine; [rewrite map_length; exact Hl|exact Hva]. } { apply opens_fresh. } { constructor. } { intros k []. } { apply Hro. } { constructor. } { constructor. }
  pose proof (fills_extends data [] _ _ _ _ Hf Hndf) as He.
  assert (Hag : agrees bb fr).
  { intros k w Hk _. assert (Hin : In k (names bb)).
    { rewrite Hkk, <- (names_fresh kn). apply dict_mem_names. rewrite <- (proj2 He k). unfold dict_mem. rewrite Hk. reflexivity. }
    apply dict_mem_names in Hin. unfold dict_mem in Hin. destruct (dict_get k bb) as [u|] eqn:Eu; [|discriminate Hin]. rewrite (Hg _ _ Eu) in Hk. exact Hk. }
  assert (Hv : evs (NVar (RList []) p) e1 s C e1 s).
  { exists 1%nat. cbn [yueval eval_body]. unfold eval_var, ebind, get_env, e1. cbn [lookup dict_get]. rewrite teqb_refl. reflexivity. }
  destruct (fills_apply ec parse data Hok e1 s [] B (agrees bb) (agrees_down bb) St (NVar (RList []) p) row x3 (fresh_frame kn) [] row fr [] None 0%Z
    Hv (row_evs row _ _ Hd) Hf B0 (fresh_settled _ _) Hndf Hag) as (b1 & (_ & _ & _ & Hw) & Hev); [constructor|].
  unfold outcome_of in Hev. rewrite Hu in Hev. rewrite Hw in Hev; [exact Hev|]. intros k w Hk. apply Hg, dict_get_gives, Hk.
Qed.
Lemma late_called rows vs e0 s0 c fn file pos : rows <> [] -> s_txt p <> lit "..." -> s_txt p <> lit "__va_args__" ->
  Forall (fun row => List.length row = List.length ks /\ Forall data row) rows -> Forall2 (fun row v => mean row v) rows vs ->
  evs (for_rows ks p rows) e0 s0 c e0 s0 -> evs fn e s c e s ->
  evs (NApply fn [tree E] [] file pos) e s (NList vs) e s.
Proof.
  intros Hne Hp1 Hp2 Hrows Hms Hc Hfn.
  assert (Hrd : Forall (Forall data) rows) by (eapply Forall_impl; [|exact Hrows]; intros r H; apply H).
  destruct (evals_det _ _ _ _ _ _ _ _ _ _ _ Hc (rows_defined ks p rows e0 s0 Hks Hp1 Hrd)) as (-> & _ & _).
  assert (Hfirst : exists row v, In row rows /\ mean row v).
  { destruct Hms as [|r v rows vs H _]; [congruence|]. exists r, v. split; [left; reflexivity|exact H]. }
  destruct Hfirst as (row & v & Hin & Hm). rewrite Forall_forall in Hrows. destruct (Hrows row Hin) as [Hl Hd].
  destruct (late_chain row v Hl Hd Hm) as (x1 & x2 & x3 & X1 & X2 & X3 & S1 & S2 & _).
  set (C := NLClosure x3 (fresh_frame kn) [] []).
  assert (Hall : forall r w, In r rows -> mean r w -> evs (row_call p r) ([(s_txt p, C)] :: e) s w ([(s_txt p, C)] :: e) s).
  { intros r w Hr Hw. destruct (Hrows r Hr) as [Lr Dr]. destruct (late_chain r w Lr Dr Hw) as (y1 & y2 & y3 & Y1 & Y2 & Y3 & _ & _ & R).
    destruct (evals_det _ _ _ _ _ _ _ _ _ _ _ Y1 X1) as (-> & _ & _). destruct (evals_det _ _ _ _ _ _ _ _ _ _ _ Y2 X2) as (-> & _ & _).
    destruct (evals_det _ _ _ _ _ _ _ _ _ _ _ Y3 X3) as (-> & _ & _). apply row_called; assumption. }
  assert (Hbody : evs (NList (map (row_call p) rows)) ([(s_txt p, C)] :: e) s (NList vs) ([(s_txt p, C)] :: e) s).
  { apply list_spec. exists vs. split; [reflexivity|]. assert (Hvd : Forall data vs).
    { assert (K : forall r w, In r rows -> mean r w -> data w).
      { intros r w Hr Hw. destruct (Hrows r Hr) as [Lr Dr]. eapply means_data; [apply bs_all_data, Dr|intros n u; apply free_gives, Lr|exact Hw]. }
      clear -Hms K. induction Hms as [|r w rows vs H _ IH]; constructor; [apply (K r w); [left; reflexivity|exact H]|apply IH; intros r' w' Hr'; apply K; right; exact Hr']. }
    clear -Hms Hall Hvd. induction Hms as [|r w rows vs H _ IH]; [constructor|]. cbn [map]. inversion Hvd as [|? ? D1 D2]; subst.
    destruct (contributes_one w (data_one w D1)) as [Hc Hn]. change (w :: vs) with ([w] ++ vs). eapply LE_cons; [apply Hall; [left; reflexivity|exact H]|exact Hc|].
    rewrite Hn. apply IH; [intros r' w' Hr'; apply Hall; right; exact Hr'|exact D2]. }
  assert (Hargs : evs (NList [tree E]) e s (NList [x1]) e s).
  { apply list_spec. exists [x1]. split; [reflexivity|]. destruct (contributes_one x1 (shape_one x1 S1)) as [Hc1 Hn1]. change [x1] with ([x1] ++ []). eapply LE_cons; [exact X1|exact Hc1|]. rewrite Hn1. constructor. }
  apply evals_fin. apply (apply_fin ec parse fn [tree E] [] file pos e s _ e s _ e s _ Hfn Hargs).
  apply evs_big in X2 as (N2 & X2). apply evs_big in X3 as (N3 & X3). apply evs_big in Hbody as (N4 & Hb).
  split; [discriminate|]. exists (S (N2 + N3 + N4)). unfold apply_rest. cbn [as_closure]. unfold apply_closure. cbn [cl_env unassigned].
  cbn [list_eval_1]. destruct (teqb_spec (s_txt p) va_args) as [Hx|_]; [contradiction|].
  unfold ebind. rewrite X2 by lia.
  assert (Hbp : bind_param (ev (S (N2 + N3 + N4))) (Clo [(s_txt p, NBound)] [(s_txt p, kn)] [] (fun e' => NLClosure (NList (map (row_call p) rows)) e' [(s_txt p, kn)] [])) (s_txt p) x2 [] [] file pos e s = Ok (NList vs, e, s)).
  { unfold bind_param. cbn [cl_late dict_get]. rewrite teqb_refl, (late_frame kn Hnd). unfold ebind at 1.
    assert (Hc1 : ev (S (N2 + N3 + N4)) (NLClosure x2 (fresh_frame kn) [] []) e s = Ok (C, e, s)).
    { cbn [yueval eval_body]. unfold ebind, in_frame. rewrite X3 by lia. rewrite unassigned_opens, opens_fresh. destruct ks; [congruence|reflexivity]. }
    rewrite Hc1. cbn [cl_env cl_node cl_dflt]. replace (frame_set (s_txt p) C [(s_txt p, NBound)]) with [(s_txt p, C)].
    - change (unassigned [(s_txt p, C)]) with (@None text). cbn [yueval eval_body]. unfold ebind, in_frame. match goal with |- context [yueval ec parse ?k ?x ?G s] => change (yueval ec parse k x G s) with (yueval ec parse k (NList (map (row_call p) rows)) ([(s_txt p, C)] :: e) s) end. rewrite Hb by lia. reflexivity.
    - unfold frame_set, dict_mem. cbn [dict_get]. rewrite ?teqb_refl. cbn [frame_del filter app dict_set dict_get fst]. rewrite ?teqb_refl. reflexivity. }
  destruct x2; try contradiction S2; exact Hbp.
Qed.
End Late.
