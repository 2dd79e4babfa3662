(** Text templates (proofs only). *)
From Coq Require Import List NArith ZArith Bool String Lia ZifyBool ZifyNat ZifyN.
From Verif Require Import PyStr Ast Lex Parse Final Eval PyStrFacts EnvSpec EnvFacts EvalSpec EvalMono EvalKeep EvalPure EvalFacts EvalFacts2 EvalFacts3 EvalFacts4 ApplyFacts ApplyFacts2 ApplyFacts3.
Import ListNotations.
Open Scope list_scope.

Section Facts.
Variables (ec : ectx) (parse : text -> M (list node)).
Hypothesis Hbr : e_browse ec = false.
Notation ev := (yueval ec parse).
Notation fin := (finishes ec parse).
Notation evs := (evals ec parse).
Notation ste := (steady ec parse).

Lemma textual_ste v : textual v -> ste v.
Proof.
  intros [u H]. destruct H; (split; [exact I|]; split; [discriminate|]; intros ? ?; exists 1%nat; reflexivity).
Qed.
Lemma textual_term v : textual v -> is_term v = true.
Proof. intros [u H]. destruct H; reflexivity. Qed.
Definition ref_state (f : frame) (rg : region) (a : source) (fl : option text) (p : Z) : node :=
  match dict_get (s_txt a) f with
  | Some v => if is_bound v then NApply (NVar rg a) [] [] fl p else v
  | None => NNone
  end.
Fixpoint tpieces (f : frame) (ind : indent) (items : list titem) : list node :=
  match items with
  | [] => []
  | TLit s i :: r => NPlain s i false :: tpieces f (indent_then ind (NPlain s i false)) r
  | TRef rg a fl p :: r => NTrim (ref_state f rg a fl p) (ind_text ind) :: tpieces f IndFalse r
  end.
Definition refs_in (f : frame) (items : list titem) : Prop :=
  Forall (fun i => match i with TRef _ a _ _ => dict_mem (s_txt a) f = true | _ => True end) items.

Lemma list_nil e s : evs (NList []) e s (NList []) e s.
Proof. exists 1%nat. reflexivity. Qed.
Lemma apply_value fn fl p e s v : textual v -> evs fn e s v e s -> evs (NApply fn [] [] fl p) e s v e s.
Proof.
  intros [u Hv] Hf. apply evals_fin.
  apply (apply_fin ec parse fn [] [] fl p e s _ e s _ e s _ Hf (list_nil e s)).
  destruct Hv; split; try discriminate; exists O; reflexivity.
Qed.
Lemma ref_first f e s rg a fl p : settled textual f -> dict_mem (s_txt a) f = true ->
  evs (NApply (NVar rg a) [] [] fl p) (f :: e) s (ref_state f rg a fl p) (f :: e) s.
Proof.
  intros Hf Hm. unfold dict_mem in Hm. unfold ref_state. destruct (dict_get (s_txt a) f) as [v|] eqn:Ev; [|discriminate Hm].
  assert (Hvar : evs (NVar rg a) (f :: e) s (if is_bound v then NVar rg a else v) (f :: e) s).
  { exists 1%nat. cbn [yueval eval_body]. unfold eval_var, ebind, get_env. cbn [lookup]. rewrite Ev. destruct v; reflexivity. }
  destruct (is_bound_spec v) as [->|Hb].
  - apply evals_fin. apply (apply_fin ec parse _ [] [] fl p _ s _ _ s _ _ s _ Hvar (list_nil _ s)).
    split; [discriminate|]. exists O. reflexivity.
  - destruct (Hf _ _ Ev) as [->|Hv]; [congruence|]. apply apply_value; assumption.
Qed.
Lemma ref_known f0 f (rg : region) a (fl : option text) (p : Z) : extends f0 f -> dict_mem (s_txt a) f0 = true -> dict_mem (s_txt a) f = true.
Proof. intros [_ H] Hm. rewrite H. exact Hm. Qed.
Lemma ref_piece f rg a fl p : settled textual f -> dict_mem (s_txt a) f = true -> piece (ref_state f rg a fl p) (ref_state f rg a fl p).
Proof.
  intros Hf Hm. unfold dict_mem in Hm. unfold ref_state. destruct (dict_get (s_txt a) f) as [v|] eqn:Ev; [|discriminate Hm].
  apply PC_value. destruct (is_bound_spec v) as [->|Hb]; [exact I|]. destruct (Hf _ _ Ev) as [->|[u Hv]]; [congruence|]. destruct Hv; exact I.
Qed.
Lemma block_first f e s items : settled textual f -> forall ind, refs_in f items ->
  block ec parse ind (map tnode items) (f :: e) s (tpieces f ind items) (f :: e) s.
Proof.
  intros Hf. induction items as [|i items IH]; intros ind Hr; cbn [map tpieces]; [constructor|]. inversion Hr as [|? ? Hi Hr']; subst.
  destruct i as [sr ii|rg a fl p]; cbn [tnode].
  - change (NPlain sr ii false) with (as_applied ind (NPlain sr ii false) (NPlain sr ii false)) at 2.
    eapply BL_value; [discriminate|exists 1%nat; reflexivity|apply PC_value; exact I|]. apply IH, Hr'.
  - change (NTrim (ref_state f rg a fl p) (ind_text ind)) with (as_applied ind (NApply (NVar rg a) [] [] fl p) (ref_state f rg a fl p)).
    eapply BL_value; [discriminate|apply ref_first; assumption|apply ref_piece; assumption|]. apply IH, Hr'.
Qed.
Lemma ref_again f0 f e s rg a fl p : extends f0 f -> settled textual f -> dict_mem (s_txt a) f0 = true ->
  evs (ref_state f0 rg a fl p) (f :: e) s (ref_state f rg a fl p) (f :: e) s.
Proof.
  intros He Hf Hm. pose proof (ref_known f0 f rg a fl p He Hm) as Hm'. unfold ref_state at 1. unfold dict_mem in Hm.
  destruct (dict_get (s_txt a) f0) as [v|] eqn:Ev; [|discriminate Hm].
  destruct (is_bound_spec v) as [->|Hb]; [apply ref_first; assumption|].
  destruct He as [He _]. pose proof (He _ _ Ev Hb) as Ev'. unfold ref_state. rewrite Ev'.
  destruct (is_bound_spec v); [congruence|]. destruct (Hf _ _ Ev') as [->|Hv]; [congruence|]. apply textual_ste, Hv.
Qed.
Lemma block_again f0 f e s items : extends f0 f -> settled textual f -> forall ind ind', refs_in f0 items ->
  block ec parse ind' (tpieces f0 ind items) (f :: e) s (tpieces f ind items) (f :: e) s.
Proof.
  intros He Hf. induction items as [|i items IH]; intros ind ind' Hr; cbn [tpieces]; [constructor|]. inversion Hr as [|? ? Hi Hr']; subst.
  destruct i as [sr ii|rg a fl p].
  - change (NPlain sr ii false) with (as_applied ind' (NPlain sr ii false) (NPlain sr ii false)) at 3.
    eapply BL_value; [discriminate|exists 1%nat; reflexivity|apply PC_value; exact I|]. apply IH, Hr'.
  - change (NTrim (ref_state f rg a fl p) (ind_text ind))
      with (as_applied ind' (NTrim (ref_state f0 rg a fl p) (ind_text ind)) (NTrim (ref_state f rg a fl p) (ind_text ind))).
    eapply BL_value; [discriminate| |apply PC_value; exact I|apply IH, Hr'].
    destruct (ref_again f0 f e s rg a fl p He Hf Hi) as [n Hn]. exists (S n). cbn [yueval eval_body]. unfold ebind. rewrite Hn. reflexivity.
Qed.
Definition tdone (ws : list node) : node :=
  if is_term (NT ws (IndStr [])) then NRaw (plain ec (NT ws (IndStr []))) else NT ws (IndStr []).
Definition tbody (items : list titem) (b : node) (f : frame) : Prop :=
  refs_in f items /\ b = tdone (tpieces f (IndStr []) items).
Lemma refs_extend f0 f items : extends f0 f -> refs_in f0 items -> refs_in f items.
Proof.
  intros He H. eapply Forall_impl; [|exact H]. intros [sr ii|rg a fl p]; [auto|]. apply (ref_known f0 f rg a fl p He).
Qed.
Lemma term_fixed f0 f items : extends f0 f -> forall ind, refs_in f0 items ->
  forallb is_term (tpieces f0 ind items) = true -> tpieces f ind items = tpieces f0 ind items.
Proof.
  intros He. induction items as [|i items IH]; intros ind Hr Ht; [reflexivity|]. inversion Hr as [|? ? Hi Hr']; subst.
  destruct i as [sr ii|rg a fl p]; cbn [tpieces forallb] in *.
  - rewrite IH; [reflexivity|exact Hr'|]. apply andb_true_iff in Ht. apply Ht.
  - apply andb_true_iff in Ht as [Ht1 Ht2]. rewrite (IH _ Hr' Ht2). f_equal. f_equal.
    cbn [is_term] in Ht1. unfold ref_state in *. unfold dict_mem in Hi.
    destruct (dict_get (s_txt a) f0) as [v|] eqn:Ev; [|discriminate Hi]. destruct (is_bound_spec v) as [->|Hb]; [discriminate Ht1|].
    destruct He as [He _]. rewrite (He _ _ Ev Hb). destruct (is_bound_spec v); [congruence|reflexivity].
Qed.
Lemma tbody_step items b f0 f e s : tbody items b f0 -> extends f0 f -> settled textual f ->
  exists b', evs b (f :: e) s b' (f :: e) s /\ tbody items b' f.
Proof.
  intros [Hr ->] He Hf. exists (tdone (tpieces f (IndStr []) items)). split; [|split; [eapply refs_extend; eassumption|reflexivity]].
  unfold tdone at 1. destruct (is_term (NT (tpieces f0 (IndStr []) items) (IndStr []))) eqn:Et.
  - rewrite (term_fixed f0 f items He (IndStr []) Hr Et). unfold tdone. rewrite Et. exists 1%nat. reflexivity.
  - apply text_spec; [exact Hbr|]. exists (tpieces f (IndStr []) items). split; [apply block_again; assumption|reflexivity].
Qed.
Lemma tbody_init items sq p f e s : refs_in f items -> settled textual f ->
  exists b', evs (NText (map tnode items) sq p) (f :: e) s b' (f :: e) s /\ tbody items b' f.
Proof.
  intros Hr Hf. exists (tdone (tpieces f (IndStr []) items)). split; [|split; [exact Hr|reflexivity]].
  assert (H : evs (NT (map tnode items) (IndStr [])) (f :: e) s (tdone (tpieces f (IndStr []) items)) (f :: e) s).
  { apply text_spec; [exact Hbr|]. exists (tpieces f (IndStr []) items). split; [apply block_first; assumption|reflexivity]. }
  destruct H as [n Hn]. exists (S n). cbn [yueval eval_body]. exact Hn.
Qed.
Lemma filled_text bs fr items : (forall k v, dict_get k bs = Some v -> dict_get k fr = Some v /\ v <> NBound) ->
  Forall (fun i => match i with TRef _ a _ _ => exists v, dict_get (s_txt a) bs = Some v /\ textual v | _ => True end) items ->
  forall ind, forallb is_term (tpieces fr ind items) = true /\
    filled (fun i u w => w = trim (e_trim ec) i u) bs ind items (List.concat (map (plain ec) (tpieces fr ind items))).
Proof.
  intros Hg. induction items as [|i items IH]; intros Hr ind; [split; [reflexivity|constructor]|].
  inversion Hr as [|? ? Hi Hr']; subst. destruct i as [sr ii|rg a fl p]; cbn [tpieces forallb map List.concat].
  - destruct (IH Hr' (indent_then ind (NPlain sr ii false))) as [H1 H2]. split; [cbn [is_term]; exact H1|].
    cbn [plain]. replace (get_trimmed (e_trim ec) false sr) with (s_txt sr) by (unfold get_trimmed; destruct (e_trim ec); reflexivity). constructor. exact H2.
  - destruct (IH Hr' IndFalse) as [H1 H2]. destruct Hi as (v & Hv & u & Hu). destruct (Hg _ _ Hv) as [Hf Hb].
    unfold ref_state. rewrite Hf. destruct (is_bound_spec v) as [->|_]; [congruence|]. split.
    + cbn [is_term]. rewrite (textual_term v) by (exists u; exact Hu). exact H1.
    + cbn [plain]. replace (plain ec v) with u by (destruct Hu; reflexivity).
      eapply FI_ref; [apply dict_get_gives, Hv|exact Hu|reflexivity|exact H2].
Qed.
Lemma template_applied e0 s0 bd ps dflt items sq q c e s fn args vs named nm bs file pos :
  declares ec parse e0 s0 bd ps dflt -> NoDup ps -> ps <> [] -> ~ In (lit "__va_args__") ps ->
  Forall (fun i => match i with TRef _ a _ _ => In (s_txt a) ps | _ => True end) items ->
  evs (NLambda bd (NText (map tnode items) sq q)) e0 s0 c e0 s0 ->
  evs fn e s c e s -> evs (NList args) e s (NList vs) e s ->
  named_values ec parse e s named nm -> incl (names nm) ps -> binds nm dflt ps vs bs ->
  Forall textual vs -> Forall (fun b => textual (snd b)) nm -> Forall (fun b => textual (snd b)) dflt ->
  exists t, filled (fun i u w => w = trim (e_trim ec) i u) bs (IndStr []) items t /\
    evs (NApply fn args named file pos) e s (NRaw t) e s.
Proof.
  intros Hd Hn Hne Hva Hi Hc Hfn Ha Hnv Hin Hbs Hvs Hnm Hdf.
  destruct (lambda_applied ec parse textual textual_ste (tbody items) e0 s0 bd ps dflt
    (NText (map tnode items) sq q) c e s fn args vs named nm bs file pos) as (v & fr & [Hr ->] & Hfr & Hev); try assumption.
  { intros ? ? ? H1 H2 H3 _. eapply tbody_step; eassumption. }
  { apply tbody_init; [|apply fresh_settled]. eapply Forall_impl; [|exact Hi]. intros [sr ii|rg a fl p]; [auto|].
    intros H. unfold dict_mem. rewrite (fresh_get ps _ H). reflexivity. }
  { intros H. contradiction. }
  pose proof (binds_ste textual _ _ _ _ _ Hbs (fun H => False_ind _ (Hva H)) Hnm Hdf Hvs) as Hst.
  destruct (filled_text bs fr items Hfr) with (ind := IndStr (@nil N)) as [H1 H2].
  { eapply Forall_impl; [|exact Hi]. intros [sr ii|rg a fl p]; [auto|]. intros H.
    rewrite <- (binds_keys _ _ _ _ _ Hbs) in H. apply dict_mem_names in H. unfold dict_mem in H.
    destruct (dict_get (s_txt a) bs) as [v|] eqn:Ev; [|discriminate H]. exists v. split; [reflexivity|].
    apply dict_get_gives in Ev. destruct Ev as (x & y & E & _). rewrite E in Hst. apply Forall_app in Hst as [_ Hst].
    inversion Hst; subst. assumption. }
  exists (List.concat (map (plain ec) (tpieces fr (IndStr []) items))). split; [exact H2|].
  unfold tdone in Hev. cbn [is_term] in Hev. rewrite H1 in Hev. exact Hev.
Qed.
End Facts.

Lemma gives_det (bs : list (text * node)) k v w : gives bs k v -> gives bs k w -> v = w.
Proof. intros H1 H2. apply dict_get_gives in H1. apply dict_get_gives in H2. congruence. Qed.
Lemma value_text_det v u w : value_text v u -> value_text v w -> u = w.
Proof. intros [] H; inversion H; reflexivity. Qed.
Lemma filled_only (R : text -> text -> text -> Prop) g bs ind items t : (forall i u w, R i u w -> w = g i u) ->
  filled R bs ind items t -> forall u, filled (fun i u w => w = g i u) bs ind items u -> t = u.
Proof.
  intros HR. induction 1 as [ind|ind sr i r t _ IH|ind rg a f p r v u w t Hg Hv Hw _ IH]; intros z Hz; inversion Hz; subst; [reflexivity| |].
  - f_equal. apply IH. assumption.
  - match goal with H : gives bs (s_txt a) ?v0 |- _ => pose proof (gives_det _ _ _ _ Hg H); subst v0 end.
    match goal with H : value_text v ?u0 |- _ => pose proof (value_text_det _ _ _ Hv H); subst u0 end.
    f_equal; [apply HR, Hw|]. apply IH. assumption.
Qed.
Lemma template_fills (R : text -> text -> text -> Prop) ec parse e0 s0 bd ps dflt items sq q c e s fn args vs named nm bs file pos t :
  e_browse ec = false -> (forall i u w, R i u w -> w = trim (e_trim ec) i u) ->
  declares ec parse e0 s0 bd ps dflt -> NoDup ps -> ps <> [] -> ~ In (lit "__va_args__") ps ->
  Forall (fun i => match i with TRef _ a _ _ => In (s_txt a) ps | _ => True end) items ->
  evals ec parse (NLambda bd (NText (map tnode items) sq q)) e0 s0 c e0 s0 ->
  evals ec parse fn e s c e s -> evals ec parse (NList args) e s (NList vs) e s ->
  named_values ec parse e s named nm -> incl (names nm) ps -> binds nm dflt ps vs bs ->
  Forall textual vs -> Forall (fun b => textual (snd b)) nm -> Forall (fun b => textual (snd b)) dflt ->
  filled R bs (IndStr []) items t ->
  evals ec parse (NApply fn args named file pos) e s (NRaw t) e s.
Proof.
  intros Hbr HR Hd Hn Hne Hva Hi Hc Hfn Ha Hnv Hin Hbs Hvs Hnm Hdf Ht.
  destruct (template_applied ec parse Hbr e0 s0 bd ps dflt items sq q c e s fn args vs named nm bs file pos) as (u & Hu & H); try assumption.
  rewrite (filled_only _ _ _ _ _ _ HR Ht u Hu). exact H.
Qed.
