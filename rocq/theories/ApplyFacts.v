(** Application of functions to positional, named and default arguments (proofs only). *)
From Coq Require Import List NArith ZArith Bool String Lia ZifyBool ZifyNat ZifyN.
From Verif Require Import PyStr Ast Lex Parse Final Eval PyStrFacts EnvSpec EnvFacts EvalSpec EvalMono EvalKeep EvalPure EvalFacts EvalFacts2 EvalFacts3 EvalFacts4.
Import ListNotations.
Open Scope list_scope.

(** ** Frames of parameters *)
Definition is_bound (v : node) : bool := match v with NBound => true | _ => false end.
Lemma is_bound_spec v : reflect (v = NBound) (is_bound v).
Proof. destruct v; constructor; congruence. Qed.
Definition opens (f : frame) : list text := map fst (filter (fun e => is_bound (snd e)) f).
Lemma unassigned_opens f : unassigned f = hd_error (opens f).
Proof.
  unfold opens. induction f as [|[k v] f IH]; [reflexivity|]. cbn [unassigned filter snd].
  destruct v; cbn [is_bound]; try exact IH. reflexivity.
Qed.
Lemma filter_comm {A} (p q : A -> bool) l : filter p (filter q l) = filter q (filter p l).
Proof.
  induction l as [|x l IH]; [reflexivity|]. cbn [filter]. destruct (p x) eqn:Ep, (q x) eqn:Eq; cbn [filter]; rewrite ?Ep, ?Eq, ?IH; reflexivity.
Qed.
Lemma filter_map_comm {A C} (g : A -> C) (p : C -> bool) l : filter p (map g l) = map g (filter (fun x => p (g x)) l).
Proof. induction l as [|x l IH]; [reflexivity|]. cbn [map filter]. destruct (p (g x)); cbn [map]; rewrite IH; reflexivity. Qed.
Lemma opens_set k v f : v <> NBound -> opens (frame_set k v f) = filter (fun x => negb (teqb k x)) (opens f).
Proof.
  intros Hv. unfold opens, frame_set, frame_del. rewrite filter_app, map_app. cbn [filter snd].
  destruct (is_bound_spec v); [contradiction|]. cbn [map]. rewrite app_nil_r, filter_comm, filter_map_comm. reflexivity.
Qed.
Lemma opens_get k f : NoDup (names f) -> In k (opens f) <-> dict_get k f = Some NBound.
Proof.
  unfold opens, names. induction f as [|[k' v] f IH]; cbn [map filter fst snd dict_get]; intros Hd.
  - split; [contradiction|discriminate].
  - inversion Hd as [|? ? Hn Hd']; subst. destruct (teqb_spec k k') as [->|Hk].
    + split.
      * destruct (is_bound_spec v) as [->|Hv]; [reflexivity|]. intros H. exfalso. apply Hn.
        apply in_map_iff in H as ([k2 v2] & E1 & H). apply filter_In in H as [H _]. cbn in E1. subst k2.
        apply (in_map fst) in H. exact H.
      * intros [= ->]. cbn [is_bound map]. left. reflexivity.
    + rewrite <- IH by exact Hd'. destruct (is_bound v); cbn [map fst]; [|reflexivity].
      split; [intros [H|H]; [congruence|exact H]|intros H; right; exact H].
Qed.
Lemma get_set k k' v f : dict_get k' (frame_set k v f) = if teqb k k' then Some v else dict_get k' f.
Proof.
  unfold frame_set, frame_del. induction f as [|[k2 v2] f IH]; cbn [filter app dict_get fst].
  - destruct (teqb_spec k k') as [->|H]; [rewrite teqb_refl; reflexivity|]. destruct (teqb_spec k' k); [congruence|reflexivity].
  - destruct (teqb_spec k k2) as [<-|Hk2]; cbn [negb].
    + rewrite IH. destruct (teqb_spec k k') as [->|H]; [reflexivity|]. destruct (teqb_spec k' k); [congruence|reflexivity].
    + cbn [app dict_get]. destruct (teqb_spec k' k2) as [->|Hk']; [|exact IH].
      destruct (teqb_spec k k2); [contradiction|reflexivity].
Qed.

Section Apply.
Variables (ec : ectx) (parse : text -> M (list node)).
Notation ev := (yueval ec parse).
Notation fin := (finishes ec parse).
Notation evs := (evals ec parse).
Notation ste := (steady ec parse).
(** the values that arguments may have *)
Variable okv : node -> Prop.
Hypothesis Hok : forall v, okv v -> ste v.

Definition settled (f : frame) : Prop := forall k v, dict_get k f = Some v -> v = NBound \/ okv v.
Definition extends (f f' : frame) : Prop :=
  (forall k v, dict_get k f = Some v -> v <> NBound -> dict_get k f' = Some v) /\
  (forall k, dict_mem k f' = dict_mem k f).
Lemma extends_refl f : extends f f.
Proof. split; auto. Qed.
Lemma extends_trans f g h : extends f g -> extends g h -> extends f h.
Proof. intros [H1 H2] [H3 H4]. split; [|congruence]. intros k v Hk Hv. apply H3; [|exact Hv]. apply H1; assumption. Qed.
Lemma extends_set k v f : dict_get k f = Some NBound -> extends f (frame_set k v f).
Proof.
  intros Hk. split.
  - intros k' v' Hk' Hv'. rewrite get_set. destruct (teqb_spec k k') as [->|H]; congruence.
  - intros k'. unfold dict_mem. rewrite get_set. destruct (teqb_spec k k') as [->|H]; [rewrite Hk; reflexivity|reflexivity].
Qed.
Lemma settled_set k v f : okv v -> settled f -> settled (frame_set k v f).
Proof.
  intros Hv Hf k' v'. rewrite get_set. destruct (teqb k k'); [intros [= <-]; auto|apply Hf].
Qed.

(** A body under a frame: [Bd b f] says that [b] is what the body has become when the
    parameters have the values of [f]; evaluating it again under a frame that gives more
    parameters brings it to that frame. *)
Variables (e : env) (s : yst) (dflt : list (text * node)).
Variable Bd : node -> frame -> Prop.
(** the frames that may come up *)
Variable adm : frame -> Prop.
Hypothesis Hadm : forall f f', extends f f' -> adm f' -> adm f.
Hypothesis Hstep : forall b f0 f, Bd b f0 -> extends f0 f -> settled f -> adm f ->
  exists b', evs b (f :: e) s b' (f :: e) s /\ Bd b' f.

Inductive fills : frame -> list (text * node) -> list node -> frame -> Prop :=
| F_named f k v nm vs fr : dict_get k f = Some NBound -> okv v ->
    fills (frame_set k v f) nm vs fr -> fills f ((k, v) :: nm) vs fr
| F_pos f k v vs fr : unassigned f = Some k -> k <> va_args -> okv v ->
    fills (frame_set k v f) [] vs fr -> fills f [] (v :: vs) fr
| F_rest f v vs fr : unassigned f = Some va_args -> okv (NList (v :: vs)) -> Forall okv (v :: vs) ->
    fills (frame_set va_args (NList (v :: vs)) f) [] [] fr -> fills f [] (v :: vs) fr
| F_dflt f k d fr : unassigned f = Some k -> dict_get k dflt = Some d -> okv d ->
    fills (frame_set k d f) [] [] fr -> fills f [] [] fr
| F_full f : unassigned f = None -> fills f [] [] f
| F_open f k : unassigned f = Some k -> dict_get k dflt = None -> fills f [] [] f.

Definition outcome_of (b : node) (fr : frame) : node :=
  match unassigned fr with Some _ => NLClosure b fr [] dflt | None => b end.
Definition clo (b : node) (f : frame) : closure := Clo f [] dflt (fun e => NLClosure b e [] dflt).
Definition named_value (a : source * node) (b : text * node) : Prop :=
  s_txt (fst a) = fst b /\ evs (snd a) e s (snd b) e s.

Lemma evs_closure b f0 f : Bd b f0 -> extends f0 f -> settled f -> adm f ->
  exists b', Bd b' f /\ evs (NLClosure b f [] dflt) e s (outcome_of b' f) e s.
Proof.
  intros Hb He Hf Ha. destruct (Hstep b f0 f Hb He Hf Ha) as (b' & [n Hn] & Hb'). exists b'. split; [exact Hb'|].
  exists (S n). cbn [yueval eval_body]. unfold ebind, in_frame. rewrite Hn. unfold outcome_of.
  destruct (unassigned f); reflexivity.
Qed.
Lemma steady_list vs : Forall ste vs -> forall e s, evs (NList vs) e s (NList vs) e s.
Proof.
  intros H e0 s0. apply list_spec. exists vs. split; [reflexivity|]. induction H as [|v l (H1 & H2 & H3) _ IH]; [constructor|].
  destruct (contributes_one v H1) as [Hc Hn]. change (v :: l) with ([v] ++ l) at 2.
  eapply LE_cons; [apply H3|exact Hc|]. rewrite Hn. exact IH.
Qed.
(** one application step on closures *)
Lemma rises_apply c vs nm file pos : rises (fun n => apply_closure (ev n) c vs nm file pos).
Proof. intros i j H. apply apply_closure_mono. intros x. apply rises_ev, H. Qed.
Lemma rises_bindp c k v vs nm file pos : rises (fun n => bind_param (ev n) c k v vs nm file pos).
Proof. intros i j H. apply bind_param_mono. intros x. apply rises_ev, H. Qed.
Lemma apply_closure_fin b f vs nm file pos r :
  evs (NLClosure b f [] dflt) e s (NLClosure b f [] dflt) e s -> Forall ste vs ->
  fin (NApply (NLClosure b f [] dflt) vs nm file pos) e s r <->
  gives_r (fun n => apply_closure (ev n) (clo b f) vs nm file pos) e s r.
Proof.
  intros H Hvs. rewrite (apply_fin ec parse _ _ nm file pos e s _ e s _ e s _ H (steady_list _ Hvs e s)). reflexivity.
Qed.
Lemma closure_again b f0 f vs nm file pos : Bd b f0 -> extends f0 f -> settled f -> adm f -> unassigned f <> None -> Forall ste vs ->
  exists b', Bd b' f /\ forall r,
    fin (NApply (NLClosure b f [] dflt) vs nm file pos) e s r <->
    gives_r (fun n => apply_closure (ev n) (clo b' f) vs nm file pos) e s r.
Proof.
  intros Hb He Hf Ha Hu Hvs. destruct (evs_closure b f0 f Hb He Hf Ha) as (b' & Hb' & Hev). exists b'. split; [exact Hb'|]. intros r.
  unfold outcome_of in Hev. destruct (unassigned f) as [u|]; [|congruence].
  rewrite (apply_fin ec parse _ _ nm file pos e s _ e s _ e s _ Hev (steady_list _ Hvs e s)). reflexivity.
Qed.
Lemma unassigned_get f k : NoDup (names f) -> unassigned f = Some k -> dict_get k f = Some NBound.
Proof.
  intros Hd Hu. rewrite unassigned_opens in Hu. apply opens_get; [exact Hd|].
  destruct (opens f); [discriminate Hu|]. injection Hu as ->. left. reflexivity.
Qed.
Lemma get_unassigned f k : NoDup (names f) -> dict_get k f = Some NBound -> unassigned f <> None.
Proof.
  intros Hd Hk. apply opens_get in Hk; [|exact Hd]. rewrite unassigned_opens. destruct (opens f); [contradiction|discriminate].
Qed.
Lemma ste_not_bound v : ste v -> v <> NBound.
Proof. intros (_ & H & _). exact H. Qed.
Lemma fills_args f nm vs fr : fills f nm vs fr -> Forall ste vs.
Proof.
  induction 1; auto. eapply Forall_impl; [|eassumption]. exact Hok.
Qed.
Lemma fills_open f nm vs fr : NoDup (names f) -> fills f nm vs fr -> nm <> [] \/ vs <> [] -> unassigned f <> None.
Proof.
  intros Hd H Hn. destruct H; try congruence; try (destruct Hn as [Hn|Hn]; congruence).
  eapply get_unassigned; eassumption.
Qed.
Lemma fills_extends f nm vs fr : fills f nm vs fr -> NoDup (names f) -> extends f fr.
Proof.
  induction 1; intros Hs; try apply extends_refl;
    (eapply extends_trans; [apply extends_set|apply IHfills, frame_set_nodup; exact Hs]); try assumption;
    apply unassigned_get; assumption.
Qed.
(** after binding [k] in [f] the application goes on with the rest *)
Lemma fills_run : forall f nm vs fr, fills f nm vs fr -> forall b nm' file pos, Bd b f -> settled f -> NoDup (names f) -> adm fr ->
  Forall2 named_value nm' nm ->
  exists b', Bd b' fr /\
    gives_r (fun n => apply_closure (ev n) (clo b f) vs nm' file pos) e s (Ok (outcome_of b' fr, e, s)).
Proof.
  assert (Hbind : forall f k v nm vs fr b nm' file pos,
    (forall b nm' file pos, Bd b (frame_set k v f) -> settled (frame_set k v f) -> NoDup (names (frame_set k v f)) -> adm fr ->
       Forall2 named_value nm' nm -> exists b', Bd b' fr /\
       gives_r (fun n => apply_closure (ev n) (clo b (frame_set k v f)) vs nm' file pos) e s (Ok (outcome_of b' fr, e, s))) ->
    fills (frame_set k v f) nm vs fr -> dict_get k f = Some NBound -> okv v ->
    Bd b f -> settled f -> NoDup (names f) -> adm fr -> Forall2 named_value nm' nm ->
    exists b', Bd b' fr /\
      gives_r (fun n => bind_param (ev n) (clo b f) k v vs nm' file pos) e s (Ok (outcome_of b' fr, e, s))).
  { intros f k v nm vs fr b nm' file pos IH Hfills Hk Hv Hb Hf Hd Hfr Hnm.
    pose proof (extends_set k v f Hk) as Hext. pose proof (settled_set k v f Hv Hf) as Hs'.
    pose proof (frame_set_nodup k v f Hd) as Hd'.
    pose proof (Hadm _ _ (fills_extends _ _ _ _ Hfills Hd') Hfr) as Ha'.
    set (done := match nm', vs with
              | [], [] => match unassigned (frame_set k v f) with
                          | None => true
                          | Some u => negb (dict_mem u dflt)
                          end
              | _, _ => false
              end).
    assert (Hgo : forall r,
      gives_r (fun n => bind_param (ev n) (clo b f) k v vs nm' file pos) e s r <->
      (if done then fin (NLClosure b (frame_set k v f) [] dflt) e s r
       else fin (NApply (NLClosure b (frame_set k v f) [] dflt) vs nm' file pos) e s r)).
    { intros r. rewrite (gives_ext _ (fun n => if done then ev n (NLClosure b (frame_set k v f) [] dflt)
        else ev n (NApply (NLClosure b (frame_set k v f) [] dflt) vs nm' file pos))) by (intros n; reflexivity).
      destruct done; reflexivity. }
    destruct done eqn:Edone.
    - destruct (evs_closure b f (frame_set k v f) Hb Hext Hs' Ha') as (b' & Hb' & Hev). exists b'.
      assert (Hfe : fr = frame_set k v f).
      { unfold done in Edone. destruct nm' as [|x nm']; [|discriminate Edone]. destruct vs as [|y vs]; [|discriminate Edone].
        inversion Hnm; subst. inversion Hfills as [| | |? k2 d ? Hu Hdf| |]; subst; try reflexivity.
        rewrite Hu in Edone. unfold dict_mem in Edone. rewrite Hdf in Edone. discriminate Edone. }
      subst fr. split; [exact Hb'|]. apply Hgo. apply evals_fin, Hev.
    - destruct (unassigned (frame_set k v f)) as [u|] eqn:Eu.
      + destruct (closure_again b f (frame_set k v f) vs nm' file pos Hb Hext Hs' Ha') as (b1 & Hb1 & Hfin).
        { congruence. } { eapply fills_args, Hfills. }
        destruct (IH b1 nm' file pos Hb1 Hs' Hd' Hfr Hnm) as (b' & Hb' & Hg). exists b'. split; [exact Hb'|].
        apply Hgo, Hfin, Hg.
      + exfalso. assert (Hne : unassigned (frame_set k v f) <> None).
        { eapply fills_open; [exact Hd'|exact Hfills|]. unfold done in Edone.
          destruct Hnm; [|left; discriminate]. destruct vs; [discriminate Edone|right; discriminate]. }
        congruence. }
  intros f nm vs fr H. induction H as [f k v nm vs fr Hk Hv Hr IH|f k v vs fr Hu Hva Hv Hr IH|f v vs fr Hu Hv Hvs Hr IH
                           |f k d fr Hu Hdf Hv Hr IH|f Hu|f k Hu Hdf]; intros b nm' file pos Hb Hf Hd Hfr Hnm.
  - inversion Hnm as [|[src x] ? nm2 ? [Hsrc Hx] Hnm']; subst. cbn [fst snd] in *.
    destruct (Hbind f k v nm vs fr b nm2 file pos IH Hr Hk Hv Hb Hf Hd Hfr Hnm') as (b' & Hb' & Hg). exists b'. split; [exact Hb'|].
    cbn [apply_closure clo cl_env]. rewrite Hsrc, Hk.
    apply (gives_bind (fun _ => eret tt) (fun n _ => ebind (ev n x) (fun v => bind_param (ev n) (clo b f) k v vs nm2 file pos)) e s tt e s).
    + apply rises_const.
    + intros _. apply (rises_bind (fun n => ev n x)); [apply rises_ev|]. intros w. apply rises_bindp.
    + apply gives_ret. reflexivity.
    + apply (gives_bind (fun n => ev n x) (fun n v => bind_param (ev n) (clo b f) k v vs nm2 file pos) e s v e s).
      * apply rises_ev.
      * intros w. apply rises_bindp.
      * apply evals_fin, Hx.
      * exact Hg.
  - inversion Hnm; subst.
    destruct (Hbind f k v [] vs fr b [] file pos IH Hr (unassigned_get _ _ Hd Hu) Hv Hb Hf Hd Hfr) as (b' & Hb' & Hg); [constructor|].
    exists b'. split; [exact Hb'|]. cbn [apply_closure clo cl_env]. rewrite Hu.
    destruct (teqb_spec k va_args) as [Ek|_]; [contradiction|].
    apply (gives_bind (fun n => list_eval_1 (ev n) (v :: vs)) (fun n q => match q with (v, args') =>
             match v with
                | None => eret (NApply (cl_node (clo b f) f) args' [] file pos)
                | Some v => bind_param (ev n) (clo b f) k v args' [] file pos
                end end) e s (Some v, vs) e s).
    + intros i j Hij. apply list_eval_1_mono. intros x. apply rises_ev, Hij.
    + intros [[w|] args']; [apply rises_bindp|apply rises_const].
    + destruct (Hok _ Hv) as (H1 & _ & H3). cbn [list_eval_1].
      apply (gives_bind (fun n => ev n v) (fun n v0 => match v0 with
        | NEmbed (NList (x :: m)) | NEmbed (NT (x :: m) _) => eret (Some x, m ++ vs)
        | NEmbed (NList []) | NEmbed (NT [] _) => list_eval_1 (ev n) vs
        | NEmbed (NVar _ _) | NEmbed (NApply _ _ _ _ _) => eret (None, v :: vs)
        | NEmbed w => eret (Some w, vs)
        | _ => eret (Some v0, vs)
        end) e s v e s).
      * apply rises_ev.
      * intros w i j Hij. assert (Hl : le_E (list_eval_1 (ev i) vs) (list_eval_1 (ev j) vs)).
        { apply list_eval_1_mono. intros x. apply rises_ev, Hij. }
        destruct w; try apply le_refl. destruct w; try apply le_refl; destruct l; try apply le_refl; exact Hl.
      * apply evals_fin, H3.
      * destruct v; try contradiction H1; apply gives_ret; reflexivity.
    + exact Hg.
  - inversion Hnm; subst.
    destruct (Hbind f va_args (NList (v :: vs)) [] [] fr b [] file pos IH Hr (unassigned_get _ _ Hd Hu) Hv Hb Hf Hd Hfr) as (b' & Hb' & Hg); [constructor|].
    exists b'. split; [exact Hb'|]. cbn [apply_closure clo cl_env]. rewrite Hu. rewrite teqb_refl. exact Hg.
  - inversion Hnm; subst.
    destruct (Hbind f k d [] [] fr b [] file pos IH Hr (unassigned_get _ _ Hd Hu) Hv Hb Hf Hd Hfr) as (b' & Hb' & Hg); [constructor|].
    exists b'. split; [exact Hb'|]. cbn [apply_closure clo cl_env cl_dflt]. rewrite Hu, Hdf.
    apply (gives_bind (fun n => ev n d) (fun n v => bind_param (ev n) (clo b f) k v [] [] file pos) e s d e s).
    + apply rises_ev.
    + intros w. apply rises_bindp.
    + apply evals_fin, (Hok _ Hv).
    + exact Hg.
  - inversion Hnm; subst. destruct (evs_closure b f f Hb (extends_refl f) Hf Hfr) as (b' & Hb' & Hev). exists b'. split; [exact Hb'|].
    cbn [apply_closure clo cl_env cl_node]. rewrite Hu. apply evals_fin in Hev. exact Hev.
  - inversion Hnm; subst. exists b. split; [exact Hb|].
    cbn [apply_closure clo cl_env cl_node cl_dflt]. rewrite Hu, Hdf. apply gives_ret. unfold outcome_of. rewrite Hu. reflexivity.
Qed.
(** applying anything that evaluates to the closure *)
Lemma fills_apply fn args b f nm vs fr nm' file pos :
  evs fn e s (NLClosure b f [] dflt) e s -> evs (NList args) e s (NList vs) e s ->
  fills f nm vs fr -> Bd b f -> settled f -> NoDup (names f) -> adm fr -> Forall2 named_value nm' nm ->
  exists b', Bd b' fr /\ evs (NApply fn args nm' file pos) e s (outcome_of b' fr) e s.
Proof.
  intros Hfn Ha Hr Hb Hf Hd Hfr Hnm. destruct (fills_run f nm vs fr Hr b nm' file pos Hb Hf Hd Hfr Hnm) as (b' & Hb' & Hg).
  exists b'. split; [exact Hb'|]. apply evals_fin.
  rewrite (apply_fin ec parse fn args nm' file pos e s _ e s _ e s _ Hfn Ha). exact Hg.
Qed.
End Apply.
