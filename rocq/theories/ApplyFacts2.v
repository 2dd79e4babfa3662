(** Which parameter gets which argument; functions that list their parameters (proofs only). *)
From Coq Require Import List NArith ZArith Bool String Lia ZifyBool ZifyNat ZifyN.
From Verif Require Import PyStr Ast Lex Parse Final Eval PyStrFacts EnvSpec EnvFacts EvalSpec EvalMono EvalKeep EvalPure EvalFacts EvalFacts2 EvalFacts3 EvalFacts4 ApplyFacts.
Import ListNotations.
Open Scope list_scope.

Section Binds.
Variables (ec : ectx) (parse : text -> M (list node)).
Notation ev := (yueval ec parse).
Notation fin := (finishes ec parse).
Notation evs := (evals ec parse).
Notation ste := (steady ec parse).

Lemma ste_list vs : Forall ste vs -> ste (NList vs).
Proof. intros H. split; [exact I|]. split; [discriminate|]. intros e s. apply steady_list, H. Qed.
Lemma gives_nil {A} k (v : A) : ~ gives [] k v.
Proof. intros (b & a & H & _). destruct b; discriminate H. Qed.
Lemma filter_not_in k (l : list text) : ~ In k l -> filter (fun x => negb (teqb k x)) l = l.
Proof.
  induction l as [|x l IH]; intros H; [reflexivity|]. cbn [filter]. destruct (teqb_spec k x) as [->|Hk].
  - contradiction H. left. reflexivity.
  - cbn [negb]. rewrite IH; [reflexivity|]. intros Hin. apply H. right. exact Hin.
Qed.
Lemma filter_head k (l : list text) : ~ In k l -> filter (fun x => negb (teqb k x)) (k :: l) = l.
Proof. intros H. cbn [filter]. rewrite teqb_refl. apply filter_not_in, H. Qed.

Lemma binds_keys nm dflt ps vs bs : binds nm dflt ps vs bs -> names bs = ps.
Proof. induction 1; cbn [names map fst]; unfold names in *; congruence. Qed.
Section Values.
Variable okv : node -> Prop.
Hypothesis Hok : forall v, okv v -> ste v.
(** the collecting parameter takes a list *)
Definition rest_ok (ps : list text) : Prop := In va_args ps -> forall vs, Forall okv vs -> okv (NList vs).
Lemma rest_ok_cons p ps : rest_ok (p :: ps) -> rest_ok ps.
Proof. intros H Hin. apply H. right. exact Hin. Qed.
Lemma okv_not_bound v : okv v -> v <> NBound.
Proof. intros H. apply Hok in H. destruct H as (_ & H & _). exact H. Qed.
Lemma binds_ste nm dflt ps vs bs : binds nm dflt ps vs bs -> rest_ok ps ->
  Forall (fun b => okv (snd b)) nm -> Forall (fun b => okv (snd b)) dflt -> Forall okv vs ->
  Forall (fun b => okv (snd b)) bs.
Proof.
  assert (Hg : forall d k (v : node), gives d k v -> Forall (fun b => okv (snd b)) d -> okv v).
  { intros d k v (b & a & -> & _) H. apply Forall_app in H as [_ H]. inversion H; subst. assumption. }
  induction 1; intros Hr Hn Hd Hv; auto; pose proof (rest_ok_cons _ _ Hr) as Hr'.
  - constructor; [eapply Hg; eassumption|auto].
  - inversion Hv; subst. constructor; auto.
  - constructor; [apply Hr; [left; reflexivity|exact Hv]|auto].
  - constructor; [cbn [snd]; eapply Hg; eassumption|auto].
Qed.

(** positional arguments and defaults *)
Lemma fill_rest dflt ps vs bs : binds [] dflt ps vs bs -> forall f,
  opens f = ps -> NoDup ps -> rest_ok ps -> Forall okv vs -> Forall (fun b => okv (snd b)) dflt ->
  exists fr, fills okv dflt f [] vs fr /\ opens fr = [] /\
    (forall k, dict_get k fr = match dict_get k bs with Some v => Some v | None => dict_get k f end).
Proof.
  assert (Hstep : forall p (v : node) r bs fr f, ~ In p r -> names bs = r ->
     (forall k, dict_get k fr = match dict_get k bs with Some v => Some v | None => dict_get k (frame_set p v f) end) ->
     forall k, dict_get k fr = match dict_get k ((p, v) :: bs) with Some v => Some v | None => dict_get k f end).
  { intros p v r bs0 fr f Hp Hn H k. rewrite H, get_set. cbn [dict_get].
    destruct (teqb_spec k p) as [->|Hk].
    - rewrite teqb_refl. replace (dict_get p bs0) with (@None node); [reflexivity|]. symmetry. apply dict_get_none. congruence.
    - destruct (teqb_spec p k); [congruence|]. reflexivity. }
  assert (Hop : forall p (v : node) r f, opens f = p :: r -> ~ In p r -> v <> NBound -> opens (frame_set p v f) = r).
  { intros p v r f H Hp Hv. rewrite opens_set, H by exact Hv. apply filter_head, Hp. }
  induction 1 as [|p r vs v bs Hg Hb IH|p r v vs bs Hn Hva Hb IH|r v vs bs Hn Hb IH|p r d bs Hn Hg Hb IH];
    intros f Hf Hd Hro Hvs Hdf; try pose proof (rest_ok_cons _ _ Hro) as Hro'.
  - exists f. split; [apply F_full; rewrite unassigned_opens, Hf; reflexivity|]. split; [exact Hf|]. reflexivity.
  - contradiction (gives_nil _ _ Hg).
  - inversion Hd as [|? ? Hp Hd']; subst. inversion Hvs as [|? ? Hv Hvs']; subst.
    destruct (IH (frame_set p v f)) as (fr & H1 & H2 & H3); try assumption.
    { apply Hop; [exact Hf|exact Hp|]. apply okv_not_bound, Hv. }
    exists fr. split; [|split; [exact H2|eapply Hstep; [exact Hp|eapply binds_keys, Hb|exact H3]]].
    eapply F_pos; [rewrite unassigned_opens, Hf; reflexivity|exact Hva|exact Hv|exact H1].
  - inversion Hd as [|? ? Hp Hd']; subst.
    destruct (IH (frame_set va_args (NList (v :: vs)) f)) as (fr & H1 & H2 & H3); try assumption; [|constructor|].
    { apply Hop; [exact Hf|exact Hp|discriminate]. }
    exists fr. split; [|split; [exact H2|eapply Hstep; [exact Hp|eapply binds_keys, Hb|exact H3]]].
    apply F_rest; [rewrite unassigned_opens, Hf; reflexivity|apply Hro; [left; reflexivity|exact Hvs]|exact Hvs|exact H1].
  - inversion Hd as [|? ? Hp Hd']; subst.
    assert (Hdst : okv d).
    { destruct Hg as (b & a & -> & _). apply Forall_app in Hdf as [_ Hdf]. inversion Hdf; subst. assumption. }
    destruct (IH (frame_set p d f)) as (fr & H1 & H2 & H3); try assumption; [|].
    { apply Hop; [exact Hf|exact Hp|]. apply okv_not_bound, Hdst. }
    exists fr. split; [|split; [exact H2|eapply Hstep; [exact Hp|eapply binds_keys, Hb|exact H3]]].
    eapply F_dflt; [rewrite unassigned_opens, Hf; reflexivity|apply dict_get_gives, Hg|exact Hdst|exact H1].
Qed.

(** named arguments first *)
Definition free_of (nm : list (text * node)) (ps : list text) : list text :=
  filter (fun p => negb (dict_mem p nm)) ps.
Lemma dict_mem_false {A} k (d : list (text * A)) : dict_mem k d = false <-> ~ In k (names d).
Proof.
  rewrite <- dict_mem_names. destruct (dict_mem k d); split; congruence.
Qed.
Lemma binds_free nm dflt ps vs bs : binds nm dflt ps vs bs ->
  binds [] dflt (free_of nm ps) vs (filter (fun b => negb (dict_mem (fst b) nm)) bs).
Proof.
  induction 1 as [|p r vs v bs Hg Hb IH|p r v vs bs Hn Hva Hb IH|r v vs bs Hn Hb IH|p r d bs Hn Hg Hb IH];
    unfold free_of in *; cbn [filter fst].
  - constructor.
  - replace (dict_mem p nm) with true; [exact IH|]. symmetry. unfold dict_mem. apply dict_get_gives in Hg. rewrite Hg. reflexivity.
  - rewrite (proj2 (dict_mem_false p nm) Hn). cbn [negb]. apply BI_positional; [intros []|exact Hva|exact IH].
  - rewrite (proj2 (dict_mem_false (lit "__va_args__") nm) Hn). cbn [negb]. apply BI_rest; [intros []|exact IH].
  - rewrite (proj2 (dict_mem_false p nm) Hn). cbn [negb]. eapply BI_default; [intros []|exact Hg|exact IH].
Qed.
Definition set_all (nm : list (text * node)) (f : frame) : frame :=
  fold_left (fun f b => frame_set (fst b) (snd b) f) nm f.
Lemma set_all_get nm : NoDup (names nm) -> forall f k,
  dict_get k (set_all nm f) = match dict_get k nm with Some v => Some v | None => dict_get k f end.
Proof.
  unfold set_all. induction nm as [|[k0 v0] nm IH]; intros Hd f k; [reflexivity|]. inversion Hd as [|? ? Hn Hd']; subst.
  cbn [fold_left fst snd dict_get]. rewrite IH by exact Hd'. rewrite get_set. destruct (teqb_spec k k0) as [->|Hk].
  - rewrite teqb_refl. replace (dict_get k0 nm) with (@None node); [reflexivity|]. symmetry. apply dict_get_none, Hn.
  - destruct (teqb_spec k0 k); [congruence|reflexivity].
Qed.
Lemma set_all_opens nm : Forall (fun b => okv (snd b)) nm -> forall f,
  opens (set_all nm f) = filter (fun p => negb (dict_mem p nm)) (opens f).
Proof.
  unfold set_all. induction 1 as [|[k v] nm Hv _ IH]; intros f; cbn [fold_left fst snd] in *.
  - symmetry. induction (opens f) as [|p l IHl]; [reflexivity|]. cbn [filter]. cbn. f_equal. exact IHl.
  - rewrite IH, opens_set by (apply okv_not_bound, Hv). clear IH.
    induction (opens f) as [|p l IHl]; [reflexivity|]. cbn [filter]. unfold dict_mem in *. cbn [dict_get].
    destruct (teqb_spec k p) as [->|Hk]; cbn [negb filter].
    + rewrite teqb_refl. cbn [negb]. exact IHl.
    + destruct (teqb_spec p k); [congruence|]. destruct (dict_get p nm); cbn [negb]; [exact IHl|]. f_equal. exact IHl.
Qed.
Lemma fills_named dflt nm vs fr : forall f,
  NoDup (names nm) -> Forall (fun b => okv (snd b)) nm ->
  (forall k, In k (names nm) -> dict_get k f = Some NBound) ->
  fills okv dflt (set_all nm f) [] vs fr -> fills okv dflt f nm vs fr.
Proof.
  unfold set_all. induction nm as [|[k v] nm IH]; intros f Hd Hs Hb Hr; [exact Hr|].
  cbn [fold_left fst snd] in Hr. inversion Hd as [|? ? Hn Hd']; subst. inversion Hs as [|? ? Hv Hs']; subst.
  apply F_named; [apply Hb; left; reflexivity|exact Hv|]. apply IH; try assumption.
  intros k' Hk'. rewrite get_set. destruct (teqb_spec k k') as [->|Hk]; [contradiction|]. apply Hb. right. exact Hk'.
Qed.
Lemma filter_dict_get (P : text -> bool) (d : list (text * node)) k : P k = true ->
  dict_get k (filter (fun b => P (fst b)) d) = dict_get k d.
Proof.
  intros HP. induction d as [|[k' v] d IH]; [reflexivity|]. cbn [filter fst dict_get].
  destruct (P k') eqn:E'; cbn [dict_get]; rewrite IH; [reflexivity|]. destruct (teqb_spec k k'); [congruence|reflexivity].
Qed.
Lemma binds_named nm dflt ps vs bs : binds nm dflt ps vs bs -> forall k v, dict_get k bs = Some v -> dict_mem k nm = true ->
  dict_get k nm = Some v.
Proof.
  induction 1 as [|p r vs v bs Hg Hb IH|p r v vs bs Hn Hva Hb IH|r v vs bs Hn Hb IH|p r d bs Hn Hg Hb IH];
    intros k w Hk Hm; cbn [dict_get] in Hk; [discriminate Hk|..];
    match type of Hk with (if teqb ?a ?b then _ else _) = _ => destruct (teqb_spec a b) as [->|Hne] end;
    try (eapply IH; eassumption); injection Hk as <-.
  - apply dict_get_gives, Hg.
  - apply dict_mem_names in Hm. contradiction.
  - apply dict_mem_names in Hm. contradiction.
  - apply dict_mem_names in Hm. contradiction.
Qed.
(** the frame in which the body is finally evaluated *)
Lemma binds_fill nm dflt ps vs bs f : binds nm dflt ps vs bs ->
  opens f = ps -> NoDup ps -> NoDup (names f) -> NoDup (names nm) -> incl (names nm) ps ->
  rest_ok ps -> Forall okv vs -> Forall (fun b => okv (snd b)) nm -> Forall (fun b => okv (snd b)) dflt ->
  exists fr, fills okv dflt f nm vs fr /\ unassigned fr = None /\
    (forall k v, dict_get k bs = Some v -> dict_get k fr = Some v).
Proof.
  intros Hb Hf Hd Hdf Hdn Hin Hro Hvs Hnm Hdt.
  destruct (fill_rest _ _ _ _ (binds_free _ _ _ _ _ Hb) (set_all nm f)) as (fr & H1 & H2 & H3); try assumption.
  { rewrite set_all_opens, Hf by exact Hnm. reflexivity. }
  { apply filter_NoDup, Hd. }
  { intros H. apply Hro. unfold free_of in H. apply filter_In in H. apply H. }
  exists fr. split; [|split].
  - apply fills_named; try assumption. intros k Hk. apply opens_get; [exact Hdf|]. rewrite Hf. apply Hin, Hk.
  - rewrite unassigned_opens, H2. reflexivity.
  - intros k v Hk. rewrite H3. destruct (dict_mem k nm) eqn:Em.
    + replace (dict_get k (filter (fun b => negb (dict_mem (fst b) nm)) bs)) with (@None node).
      * rewrite set_all_get by exact Hdn. rewrite (binds_named _ _ _ _ _ Hb _ _ Hk Em). reflexivity.
      * symmetry. apply dict_get_none. intros H. apply in_map_iff in H as ([k2 v2] & E1 & H).
        apply filter_In in H as [_ H]. cbn [fst] in *. subst k2. rewrite Em in H. discriminate H.
    + rewrite (filter_dict_get (fun p => negb (dict_mem p nm))) by (rewrite Em; reflexivity). rewrite Hk. reflexivity.
Qed.

End Values.

(** ** Lambdas *)
Definition fresh_frame (ps : list text) : frame := map (fun p => (p, NBound)) ps.
Lemma dict_set_fresh {A} k (v : A) d : ~ In k (names d) -> dict_set k v d = d ++ [(k, v)].
Proof.
  induction d as [|[k' v'] d IH]; intros H; [reflexivity|]. cbn [dict_set]. destruct (teqb_spec k k') as [->|Hk].
  - contradiction H. left. reflexivity.
  - cbn [app]. f_equal. apply IH. intros Hin. apply H. right. exact Hin.
Qed.
Lemma names_fresh ps : names (fresh_frame ps) = ps.
Proof. unfold names, fresh_frame. rewrite map_map. cbn [fst]. apply map_id. Qed.
Lemma opens_fresh ps : opens (fresh_frame ps) = ps.
Proof.
  unfold opens, fresh_frame. induction ps as [|p ps IH]; [reflexivity|]. cbn [map filter snd is_bound fst]. f_equal. exact IH.
Qed.
Lemma declares_names e s bd ps dflt : declares ec parse e s bd ps dflt ->
  forall k, In k (names dflt) -> k <> lit "..." -> In k ps.
Proof.
  induction 1 as [|a bd ps dflt H IH|a d v bd ps dflt Hd He Hv H IH]; intros k Hk Hne; [destruct Hk|right; auto|].
  destruct Hk as [<-|Hk]; [|right; auto]. left. unfold param_name. cbn [fst].
  destruct (teqb_spec (s_txt a) (lit "...")); [contradiction|reflexivity].
Qed.
Lemma declares_ste e s bd ps dflt : declares ec parse e s bd ps dflt -> Forall (fun b => ste (snd b)) dflt.
Proof. induction 1; auto. Qed.
Lemma rises_lambda bd late dflt f : rises (fun n => lambda_loop (ev n) bd late dflt f).
Proof. intros i j H. apply lambda_loop_mono. intros x. apply rises_ev, H. Qed.
Lemma param_name_inj a b : s_txt a = s_txt b -> param_name a = param_name b.
Proof. unfold param_name. intros ->. reflexivity. Qed.
Lemma lambda_loop_spec e s bd ps dflt : declares ec parse e s bd ps dflt -> forall dflt0 f0,
  NoDup (map param_name (map (fun b => snd (fst b)) bd)) ->
  (forall k, In k (map param_name (map (fun b => snd (fst b)) bd)) -> ~ In k (names f0)) ->
  (forall a, In a (map (fun b => snd (fst b)) bd) -> ~ In (s_txt a) (names dflt0)) ->
  gives_r (fun n => lambda_loop (ev n) bd [] dflt0 f0) e s
    (Ok (([], dflt0 ++ dflt, f0 ++ fresh_frame ps), e, s)).
Proof.
  assert (Hk : forall a (bd : list (list source * source * node)),
     ~ In (param_name a) (map param_name (map (fun b => snd (fst b)) bd)) ->
     forall b, In b (map (fun b => snd (fst b)) bd) -> s_txt b <> s_txt a).
  { intros a bd0 Hn b Hb Heq. apply Hn. rewrite <- (param_name_inj b a Heq). apply in_map, Hb. }
  induction 1 as [|a bd ps dflt H IH|a d v bd ps dflt Hd He Hv H IH]; intros dflt0 f0 Hn Hf Hdf; cbn [lambda_loop].
  - rewrite !app_nil_r. apply gives_ret. reflexivity.
  - cbn [map fst snd] in Hn, Hf, Hdf. inversion Hn as [|? ? Hn1 Hn2]; subst.
    apply (gives_bind (fun _ => eret dflt0) (fun n dflt => lambda_loop (ev n) bd [] dflt (frame_set (param_name a) NBound f0)) e s dflt0 e s).
    + apply rises_const.
    + intros w. apply rises_lambda.
    + apply gives_ret. reflexivity.
    + rewrite frame_set_fresh by (apply Hf; left; reflexivity).
      replace (f0 ++ fresh_frame (param_name a :: ps)) with ((f0 ++ [(param_name a, NBound)]) ++ fresh_frame ps)
        by (rewrite <- app_assoc; reflexivity).
      apply IH; [exact Hn2| |].
      * intros k Hk1 Hk2. unfold names in Hk2. rewrite map_app in Hk2. apply in_app_or in Hk2 as [Hk2|[<-|[]]].
        -- apply (Hf k); [right; exact Hk1|exact Hk2].
        -- contradiction.
      * intros b Hb. apply Hdf. right. exact Hb.
  - cbn [map fst snd] in Hn, Hf, Hdf. inversion Hn as [|? ? Hn1 Hn2]; subst.
    set (m := fun n => match d with
                       | NNone => eret dflt0
                       | _ => ebind (ev n d) (fun v => eret (dict_set (s_txt a) v dflt0))
                       end).
    change (gives_r (fun n => ebind (m n) (fun dflt => lambda_loop (ev n) bd [] dflt (frame_set (param_name a) NBound f0))) e s
      (Ok ([], dflt0 ++ (s_txt a, v) :: dflt, f0 ++ fresh_frame (param_name a :: ps), e, s))).
    assert (Hm : forall r, gives_r m e s r <-> gives_r (fun n => ebind (ev n d) (fun v => eret (dict_set (s_txt a) v dflt0))) e s r).
    { intros r. unfold m. destruct d; try reflexivity. contradiction. }
    apply (gives_bind m (fun n dflt => lambda_loop (ev n) bd [] dflt (frame_set (param_name a) NBound f0)) e s
             (dflt0 ++ [(s_txt a, v)]) e s).
    + assert (Hr : rises (fun n => ebind (ev n d) (fun v => eret (dict_set (s_txt a) v dflt0)))).
      { apply (rises_bind (fun n => ev n d)); [apply rises_ev|]. intros w. apply rises_const. }
      unfold m. destruct d; try exact Hr. contradiction.
    + intros w. apply rises_lambda.
    + apply Hm. apply (gives_bind (fun n => ev n d) (fun _ v => eret (dict_set (s_txt a) v dflt0)) e s v e s).
      * apply rises_ev.
      * intros w. apply rises_const.
      * apply evals_fin, He.
      * apply gives_ret. rewrite dict_set_fresh; [reflexivity|]. apply Hdf. left. reflexivity.
    + rewrite frame_set_fresh by (apply Hf; left; reflexivity).
      replace (f0 ++ fresh_frame (param_name a :: ps)) with ((f0 ++ [(param_name a, NBound)]) ++ fresh_frame ps)
        by (rewrite <- app_assoc; reflexivity).
      replace (dflt0 ++ (s_txt a, v) :: dflt) with ((dflt0 ++ [(s_txt a, v)]) ++ dflt) by (rewrite <- app_assoc; reflexivity).
      apply IH; [exact Hn2| |].
      * intros k Hk1 Hk2. unfold names in Hk2. rewrite map_app in Hk2. apply in_app_or in Hk2 as [Hk2|[<-|[]]].
        -- apply (Hf k); [right; exact Hk1|exact Hk2].
        -- contradiction.
      * intros b Hb Hin. unfold names in Hin. rewrite map_app in Hin. apply in_app_or in Hin as [Hin|[Hin|[]]].
        -- apply (Hdf b); [right; exact Hb|exact Hin].
        -- apply (Hk a bd Hn1 b Hb). symmetry. exact Hin.
Qed.
Lemma declares_params e s bd ps dflt : declares ec parse e s bd ps dflt ->
  map param_name (map (fun b => snd (fst b)) bd) = ps.
Proof. induction 1; cbn [map fst snd]; congruence. Qed.
Lemma lambda_fin e s bd ps dflt body : declares ec parse e s bd ps dflt -> NoDup ps -> forall r,
  fin (NLambda bd body) e s r <-> fin (NLClosure body (fresh_frame ps) [] dflt) e s r.
Proof.
  intros Hd Hn r. rewrite fin_body. cbn [eval_body]. unfold eval_lambda.
  apply (gives_bind (fun n => lambda_loop (ev n) bd [] [] []) (fun n x => match x with (late, dflt, f) =>
           ev n (NLClosure body f late dflt) end) e s ([], dflt, fresh_frame ps) e s).
  - apply rises_lambda.
  - intros [[late df] f]. apply rises_ev.
  - rewrite <- (declares_params _ _ _ _ _ Hd) in Hn. apply (lambda_loop_spec e s bd ps dflt Hd [] []).
    + exact Hn.
    + intros k _ [].
    + intros a _ [].
Qed.
Lemma fresh_settled okv ps : settled okv (fresh_frame ps).
Proof.
  intros k v H. left. unfold fresh_frame in H. induction ps as [|p ps IH]; cbn [map dict_get] in H; [discriminate H|].
  destruct (teqb k p); [congruence|auto].
Qed.
Lemma fresh_get ps k : In k ps -> dict_get k (fresh_frame ps) = Some NBound.
Proof.
  unfold fresh_frame. induction ps as [|p ps IH]; [contradiction|]. cbn [map dict_get]. destruct (teqb_spec k p) as [->|Hk]; [reflexivity|].
  intros [H|H]; [congruence|auto].
Qed.

(** ** The general statement for a kind of body *)
Section Body.
Variable okv : node -> Prop.
Hypothesis Hok : forall v, okv v -> ste v.
Variable Bd : node -> frame -> Prop.
(** the assigned parameters have the values of [bs] *)
Definition agrees (bs : list (text * node)) (f : frame) : Prop :=
  forall k v, dict_get k f = Some v -> v <> NBound -> dict_get k bs = Some v.
Lemma agrees_down bs f f' : extends f f' -> agrees bs f' -> agrees bs f.
Proof. intros [H _] Ha k v Hk Hv. apply Ha; auto. Qed.
Lemma lambda_applied e0 s0 bd ps dflt body c e s fn args vs named nm bs file pos :
  (forall b f0 f, Bd b f0 -> extends f0 f -> settled okv f -> agrees bs f ->
     exists b', evs b (f :: e) s b' (f :: e) s /\ Bd b' f) ->
  declares ec parse e0 s0 bd ps dflt -> NoDup ps -> ps <> [] ->
  (exists b', evs body (fresh_frame ps :: e0) s0 b' (fresh_frame ps :: e0) s0 /\ Bd b' (fresh_frame ps)) ->
  evs (NLambda bd body) e0 s0 c e0 s0 ->
  evs fn e s c e s -> evs (NList args) e s (NList vs) e s -> Forall okv vs ->
  named_values ec parse e s named nm -> Forall (fun b => okv (snd b)) nm -> Forall (fun b => okv (snd b)) dflt ->
  rest_ok okv ps -> incl (names nm) ps -> binds nm dflt ps vs bs ->
  exists v fr, Bd v fr /\ (forall k v, dict_get k bs = Some v -> dict_get k fr = Some v /\ v <> NBound) /\
    evs (NApply fn args named file pos) e s v e s.
Proof.
  intros Hstep Hd Hn Hne Hb Hc Hfn Ha Hvs (Hnv & Hnd & _) Hns Hdst Hro Hin Hbs.
  assert (Hclo : exists b', Bd b' (fresh_frame ps) /\ c = NLClosure b' (fresh_frame ps) [] dflt).
  { apply evals_fin, (lambda_fin _ _ _ _ _ _ Hd Hn), evals_fin in Hc.
    destruct Hb as (b' & [n Hn'] & Hb'). exists b'. split; [exact Hb'|].
    assert (Hev : evs (NLClosure body (fresh_frame ps) [] dflt) e0 s0 (outcome_of dflt b' (fresh_frame ps)) e0 s0).
    { exists (S n). cbn [yueval eval_body]. unfold ebind, in_frame. rewrite Hn'. unfold outcome_of.
      destruct (unassigned (fresh_frame ps)); reflexivity. }
    destruct (evals_det _ _ _ _ _ _ _ _ _ _ _ Hc Hev) as (-> & _ & _). unfold outcome_of.
    rewrite unassigned_opens, opens_fresh. destruct ps; [congruence|reflexivity]. }
  destruct Hclo as (b' & Hb' & ->).
  destruct (binds_fill okv Hok nm dflt ps vs bs (fresh_frame ps) Hbs) as (fr & H1 & H2 & H3); try assumption.
  { apply opens_fresh. } { rewrite names_fresh. exact Hn. }
  assert (Hnf : NoDup (names (fresh_frame ps))) by (rewrite names_fresh; exact Hn).
  assert (Hag : agrees bs fr).
  { intros k v Hk _. pose proof (fills_extends okv dflt _ _ _ _ H1 Hnf) as [_ Hm]. specialize (Hm k).
    assert (Hkin : In k (names bs)).
    { rewrite (binds_keys _ _ _ _ _ Hbs), <- (names_fresh ps). apply dict_mem_names. rewrite <- Hm. unfold dict_mem. rewrite Hk. reflexivity. }
    apply dict_mem_names in Hkin. unfold dict_mem in Hkin. destruct (dict_get k bs) as [w|] eqn:Ew; [|discriminate Hkin].
    rewrite (H3 _ _ Ew) in Hk. exact Hk. }
  destruct (fills_apply ec parse okv Hok e s dflt Bd (agrees bs) (agrees_down bs) Hstep fn args b' (fresh_frame ps) nm vs fr named file pos Hfn Ha H1 Hb' (fresh_settled okv ps) Hnf Hag Hnv)
    as (v & Hv & Hev).
  exists v, fr. split; [exact Hv|]. split.
  - intros k w Hk. split; [apply H3, Hk|]. pose proof (binds_ste okv _ _ _ _ _ Hbs Hro Hns Hdst Hvs) as Hst.
    apply dict_get_gives in Hk. destruct Hk as (x & y & E & _). rewrite E in Hst. apply Forall_app in Hst as [_ Hst].
    inversion Hst; subst. apply (okv_not_bound okv Hok). assumption.
  - unfold outcome_of in Hev. rewrite H2 in Hev. exact Hev.
Qed.
End Body.

(** ** Bodies that list parameters and constants *)
Definition lstate (f : frame) (i : litem) (x : node) : Prop :=
  match i with
  | LVar r a => exists v, dict_get (s_txt a) f = Some v /\ x = match v with NBound => NVar r a | _ => v end
  | LConst v => x = v /\ ste v
  end.
Definition lbody (items : list litem) (b : node) (f : frame) : Prop :=
  exists xs, b = NList xs /\ Forall2 (lstate f) items xs.
Lemma lstate_step f0 f e s i x : lstate f0 i x -> extends f0 f -> settled ste f ->
  exists y, evs x (f :: e) s y (f :: e) s /\ lstate f i y /\ one_element y.
Proof.
  intros Hx [He1 He2] Hf. destruct i as [r a|v].
  - destruct Hx as (v & Hv & ->).
    assert (Hw : exists w, dict_get (s_txt a) f = Some w).
    { specialize (He2 (s_txt a)). unfold dict_mem in He2. rewrite Hv in He2. destruct (dict_get (s_txt a) f); [eauto|discriminate He2]. }
    destruct Hw as (w & Hw). destruct (is_bound_spec v) as [->|Hnb].
    + exists (match w with NBound => NVar r a | _ => w end). split; [|split].
      * exists 1%nat. cbn [yueval eval_body]. unfold eval_var, ebind, get_env. cbn [lookup]. rewrite Hw. destruct w; reflexivity.
      * exists w. auto.
      * destruct (Hf _ _ Hw) as [->|(H1 & _)]; [exact I|]. destruct w; try exact H1; exact I.
    + assert (E : match v with NBound => NVar r a | _ => v end = v) by (destruct v; try reflexivity; congruence). rewrite E.
      pose proof (He1 _ _ Hv Hnb) as Hv'. destruct (Hf _ _ Hv') as [->|(H1 & H2 & H3)]; [congruence|].
      exists v. split; [apply H3|]. split; [|exact H1]. exists v. split; [exact Hv'|]. symmetry. exact E.
  - destruct Hx as [-> Hv]. exists v. split; [apply Hv|]. split; [split; [reflexivity|exact Hv]|apply Hv].
Qed.
Lemma lbody_step items b f0 f e s : lbody items b f0 -> extends f0 f -> settled ste f ->
  exists b', evs b (f :: e) s b' (f :: e) s /\ lbody items b' f.
Proof.
  intros (xs & -> & Hxs) He Hf.
  assert (H : exists ys, Forall2 (lstate f) items ys /\ list_evals ec parse xs (f :: e) s ys (f :: e) s).
  { clear -Hxs He Hf. induction Hxs as [|i x items xs Hx _ (ys & H1 & H2)].
    - exists []. split; constructor.
    - destruct (lstate_step f0 f e s i x Hx He Hf) as (y & H3 & H4 & H5). destruct (contributes_one y H5) as [Hc Hn].
      exists (y :: ys). split; [constructor; assumption|]. change (y :: ys) with ([y] ++ ys).
      eapply LE_cons; [exact H3|exact Hc|]. rewrite Hn. exact H2. }
  destruct H as (ys & H1 & H2). exists (NList ys). split; [apply list_spec; eauto|]. exists ys. auto.
Qed.
Lemma list_function e0 s0 bd ps dflt items c e s fn args vs named nm bs file pos :
  declares ec parse e0 s0 bd ps dflt -> NoDup ps -> ps <> [] ->
  Forall (fun i => match i with LVar _ a => In (s_txt a) ps | LConst v => ste v end) items ->
  evs (NLambda bd (NList (map lnode items))) e0 s0 c e0 s0 ->
  evs fn e s c e s -> evs (NList args) e s (NList vs) e s -> Forall ste vs ->
  named_values ec parse e s named nm -> incl (names nm) ps -> binds nm dflt ps vs bs ->
  exists ws, Forall2 (lvalue bs) items ws /\ evs (NApply fn args named file pos) e s (NList ws) e s.
Proof.
  intros Hd Hn Hne Hi Hc Hfn Ha Hvs Hnv Hin Hbs.
  destruct (lambda_applied ste (fun v H => H) (lbody items) e0 s0 bd ps dflt (NList (map lnode items)) c e s fn args vs named nm bs file pos)
    as (v & fr & (ws & -> & Hws) & Hfr & Hev); try assumption; [intros ? ? ? H1 H2 H3 _; eapply lbody_step; eassumption| | apply Hnv | eapply declares_ste, Hd | intros _ ?; apply ste_list |].
  { apply lbody_step with (f0 := fresh_frame ps); [|apply extends_refl|apply fresh_settled].
    exists (map lnode items). split; [reflexivity|]. clear -Hi. induction Hi as [|i items Hi _ IH]; constructor; [|exact IH].
    destruct i as [r a|v]; cbn [lnode lstate]; [|auto]. exists NBound. split; [apply fresh_get, Hi|reflexivity]. }
  exists ws. split; [|exact Hev].
  assert (Hps : forall k, In k ps -> exists v, dict_get k bs = Some v).
  { intros k Hk. rewrite <- (binds_keys _ _ _ _ _ Hbs) in Hk. apply dict_mem_names in Hk. unfold dict_mem in Hk.
    destruct (dict_get k bs); [eauto|discriminate Hk]. }
  clear -Hws Hfr Hi Hps. induction Hws as [|i x items ws Hx _ IH]; constructor.
  - inversion Hi as [|? ? Hi1 _]; subst. destruct i as [r a|v].
    + destruct Hx as (v & Hv & ->). destruct (Hps _ Hi1) as (w & Hw). destruct (Hfr _ _ Hw) as [H1 H2].
      assert (v = w) by congruence. subst v. replace (match w with NBound => NVar r a | _ => w end) with w by (destruct w; try reflexivity; congruence).
      constructor. apply dict_get_gives, Hw.
    + destruct Hx as [-> _]. constructor.
  - inversion Hi; subst. apply IH. assumption.
Qed.
End Binds.
