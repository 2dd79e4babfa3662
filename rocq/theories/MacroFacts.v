(** * Macros called with named arguments (proofs only) *)
From Coq Require Import List NArith ZArith Bool Lia ZifyBool ZifyNat ZifyN.
From Verif Require Import PyStr Ast Lex Parse Final Eval PyStrFacts EnvSpec EnvFacts EvalSpec EvalMono EvalKeep EvalPure EvalFacts EvalFacts2 EvalFacts3 EvalFacts4 ApplyFacts ApplyFacts2 FormatSpec FormatFacts FormatFacts2 MacroSpec.
Import ListNotations.
Open Scope list_scope.
Open Scope N_scope.

Section Macro.
Variables (ec : ectx) (parse : text -> M (list node)).
Notation ev := (yueval ec parse).
Notation fin := (finishes ec parse).
Notation evs := (evals ec parse).
Notation ste := (steady ec parse).

Definition del (a : text) (qs : list text) : list text := filter (fun q => negb (teqb a q)) qs.
Lemma del_in a qs q : In q (del a qs) <-> In q qs /\ q <> a.
Proof.
  unfold del. rewrite filter_In. destruct (teqb_spec a q) as [->|H]; cbn [negb]; intuition congruence.
Qed.
Lemma del_length a qs : NoDup qs -> In a qs -> S (length (del a qs)) = length qs.
Proof.
  induction 1 as [|q qs Hq Hd IH]; intros Hin; [contradiction|]. cbn [del filter]. destruct (teqb_spec a q) as [->|Hn].
  - cbn [negb length]. f_equal. f_equal. clear -Hq. induction qs as [|x qs IH]; [reflexivity|]. cbn [filter].
    destruct (teqb_spec q x) as [->|H]; [contradiction Hq; left; reflexivity|]. cbn [negb]. f_equal. apply IH. intros H1. apply Hq. right. exact H1.
  - cbn [negb length]. f_equal. apply IH. destruct Hin as [->|Hin]; [contradiction|exact Hin].
Qed.
Lemma unnamed_del a ks qs q : unnamed (a :: ks) qs q -> unnamed ks (del a qs) q.
Proof.
  induction 1 as [|p r q Hp _ IH|p r q Hp _ IH]; cbn [del filter]; [constructor| |].
  - destruct (teqb_spec a p) as [->|Hn]; cbn [negb]; [exact IH|]. apply UN_named; [|exact IH]. destruct Hp as [->|Hp]; [contradiction|exact Hp].
  - destruct (teqb_spec a p) as [->|Hn]; cbn [negb]; [contradiction Hp; left; reflexivity|]. apply UN_open; [|exact IH]. intros H. apply Hp. right. exact H.
Qed.
Lemma unnamed_all qs q : unnamed [] qs q -> q = qs.
Proof. induction 1 as [|p r q Hp _ IH|p r q _ _ IH]; [reflexivity|contradiction|congruence]. Qed.
Lemma unnamed_length ks : NoDup ks -> forall ps q, unnamed ks ps q -> NoDup ps -> incl ks ps -> (length q + length ks = length ps)%nat.
Proof.
  induction ks as [|k ks IH]; intros Hd ps q Hq Hp Hi.
  - rewrite (unnamed_all _ _ Hq). cbn. lia.
  - inversion Hd; subst. rewrite <- (del_length k ps Hp) by (apply Hi; left; reflexivity). cbn [length]. rewrite <- (IH ltac:(assumption) (del k ps) q (unnamed_del _ _ _ _ Hq)); [lia|apply NoDup_filter, Hp|].
    intros x Hx. apply del_in. split; [apply Hi; right; exact Hx|]. intros ->. contradiction.
Qed.
Lemma frame_set_in a v qs f : ~ In a (names f) -> frame_set a v (fresh_frame qs ++ f) = fresh_frame (del a qs) ++ (f ++ [(a, v)]).
Proof.
  intros Hf. unfold frame_set, frame_del. rewrite filter_app, <- app_assoc. f_equal.
  - induction qs as [|q qs IH]; [reflexivity|]. cbn [fresh_frame map filter fst del]. destruct (teqb a q); cbn [negb map]; [exact IH|]. f_equal. exact IH.
  - f_equal. induction f as [|[k w] f IH]; [reflexivity|]. cbn [filter fst]. destruct (teqb_spec a k) as [->|Hk].
    + contradiction Hf. left. reflexivity.
    + cbn [negb]. f_equal. apply IH. intros H. apply Hf. right. exact H.
Qed.
Lemma get_open a qs f : In a qs -> dict_get a (fresh_frame qs ++ f) = Some NBound.
Proof.
  induction qs as [|q qs IH]; intros H; [contradiction|]. cbn [fresh_frame map app dict_get]. destruct (teqb_spec a q) as [E|E].
  - reflexivity.
  - destruct H as [H|H]; [congruence|]. apply IH, H.
Qed.
Lemma macro_named_run body d file pos r : forall named nm qs q vs f call e s e1 s1,
  named_evals ec parse named e s nm e1 s1 -> NoDup qs -> ~ In va_args qs -> NoDup (names nm) -> incl (names nm) qs -> unnamed (names nm) qs q ->
  Forall given f -> Forall given nm -> Forall (fun v => exists u, inserts v u) vs -> length vs = length q -> (forall p, In p qs -> ~ In p (names f)) ->
  gives_r (fun n => apply_closure (ev n) (mclo body (fresh_frame qs ++ f) d call) vs named file pos) e s r <->
  fin (NEval (NRaw (expand ec (f ++ nm ++ combine q vs) body)) d (if Nat.leb (length qs) 1 then call else None)) e1 s1 r.
Proof.
  induction named as [|[a val] named IH]; intros nm qs q vs f call e s e1 s1 Hn Hd Hva Hnd Hi Hq Hf Hg Hv Hl Hdis.
  - inversion Hn; subst. rewrite (unnamed_all _ _ Hq) in Hl |- *. cbn [app]. apply macro_run; assumption.
  - inversion Hn as [|? ? ? ? ? v e2 s2 w ? ? Hv1 Hn1]; subst. cbn [names map fst] in *. inversion Hnd as [|? ? Hna Hnd']; subst. inversion Hg as [|? ? Ha Hg']; subst.
    assert (Hin : In (s_txt a) qs) by (apply Hi; left; reflexivity).
    set (f' := f ++ [(s_txt a, v)]). assert (Hf' : Forall given f') by (apply Forall_app; split; [exact Hf|constructor; [exact Ha|constructor]]).
    assert (Hi' : incl (names w) (del (s_txt a) qs)) by (intros x Hx; apply del_in; split; [apply Hi; right; exact Hx|intros ->; contradiction]).
    assert (Hmore : (length (del (s_txt a) qs) = length q + length w)%nat).
    { rewrite <- (unnamed_length (names w) Hnd' (del (s_txt a) qs) q (unnamed_del _ _ _ _ Hq) (NoDup_filter _ Hd) Hi'). unfold names. rewrite map_length. reflexivity. }
    assert (Hw : length w = length named).
    { clear -Hn1. induction Hn1; cbn; congruence. }
    rewrite (gives_ext _ (fun n => ebind (ev n val) (fun v => bind_param (ev n) (mclo body (fresh_frame qs ++ f) d call) (s_txt a) v vs named file pos))).
    2:{ intros n. unfold apply_closure. cbn [cl_env mclo]. rewrite (get_open _ _ f Hin). reflexivity. }
    rewrite (gives_bind (fun n => ev n val) (fun n v => bind_param (ev n) (mclo body (fresh_frame qs ++ f) d call) (s_txt a) v vs named file pos) e s v e2 s2);
      [|apply rises_ev|intros x; apply rises_bindp|apply evals_fin, Hv1].
    assert (Hstep : gives_r (fun n => bind_param (ev n) (mclo body (fresh_frame qs ++ f) d call) (s_txt a) v vs named file pos) e2 s2 r <->
       gives_r (fun n => match vs, named with [], [] => ev n (NMClosure body (fresh_frame (del (s_txt a) qs) ++ f') d call)
                                     | _, _ => ev n (NApply (NMClosure body (fresh_frame (del (s_txt a) qs) ++ f') d call) vs named file pos) end) e2 s2 r).
    { apply gives_ext. intros n. unfold bind_param, mclo. cbn [cl_late cl_env cl_dflt cl_node dict_get]. unfold ebind, eret. rewrite frame_set_in by (apply Hdis, Hin). fold f'.
      destruct named as [|nx named]; [|destruct vs; reflexivity]. destruct vs as [|v2 vs]; [|reflexivity]. destruct (unassigned (fresh_frame (del (s_txt a) qs) ++ f')); reflexivity. }
    rewrite Hstep. assert (Hshape : f ++ ((s_txt a, v) :: w) ++ combine q vs = f' ++ w ++ combine q vs) by (unfold f'; rewrite <- app_assoc; reflexivity). rewrite Hshape. clear Hstep Hshape.
    pose proof (del_length (s_txt a) qs Hd Hin) as Hdl.
    assert (Hfull : vs = [] -> named = [] -> fresh_frame (del (s_txt a) qs) = [] /\ w = [] /\ q = []).
    { intros -> ->. destruct w; [|discriminate Hw]. destruct q; [|discriminate Hl]. cbn in Hmore. destruct (del (s_txt a) qs); [auto|discriminate]. }
    assert (Hgo : vs <> [] \/ named <> [] ->
      gives_r (fun n => ev n (NApply (NMClosure body (fresh_frame (del (s_txt a) qs) ++ f') d call) vs named file pos)) e2 s2 r <->
      fin (NEval (NRaw (expand ec (f' ++ w ++ combine q vs) body)) d (if Nat.leb (length qs) 1 then call else None)) e1 s1 r).
    { intros Hne. assert (Hps : del (s_txt a) qs <> []).
      { intros E. rewrite E in Hmore. cbn in Hmore. destruct Hne as [Hne|Hne]; [destruct vs; [congruence|cbn in Hl; lia]|destruct named; [congruence|cbn in Hw; lia]]. }
      rewrite <- fin_gives.
      assert (Hst : Forall ste vs) by (eapply Forall_impl; [|exact Hv]; intros x [y Hy]; apply (inserts_ste ec parse x y Hy)).
      rewrite (apply_fin ec parse _ _ named file pos e2 s2 _ e2 s2 _ e2 s2 r (closure_open ec parse body (del (s_txt a) qs) f' d call e2 s2 Hf' Hps) (steady_list ec parse _ Hst e2 s2)).
      cbn [call_of]. unfold apply_rest. cbn [as_closure]. fold (mclo body (fresh_frame (del (s_txt a) qs) ++ f') d None).
      rewrite (IH w (del (s_txt a) qs) q vs f' None e2 s2 e1 s1); try assumption.
      - replace (Nat.leb (length qs) 1) with false; [destruct (Nat.leb _ 1); reflexivity|]. symmetry. apply Nat.leb_gt. destruct (del (s_txt a) qs); [congruence|cbn in Hdl; lia].
      - apply NoDup_filter, Hd.
      - intros H. apply del_in in H as [H _]. exact (Hva H).
      - apply unnamed_del, Hq.
      - intros p Hp Hin2. apply del_in in Hp as [Hp Hp2]. unfold f', names in Hin2. rewrite map_app in Hin2. apply in_app_or in Hin2 as [Hin2|[E|[]]].
        + apply (Hdis p Hp Hin2).
        + cbn [fst] in E. congruence. }
    destruct vs as [|v2 vs]; [|destruct named; apply Hgo; left; discriminate].
    destruct named as [|nx named]; [|apply Hgo; right; discriminate].
    destruct (Hfull eq_refl eq_refl) as (E1 & -> & ->). rewrite E1. inversion Hn1; subst. cbn [app combine]. rewrite app_nil_r.
    rewrite <- fin_gives. rewrite closure_full by exact Hf'. replace (Nat.leb (length qs) 1) with true; [reflexivity|]. symmetry. apply Nat.leb_le.
    destruct (del (s_txt a) qs); [cbn in Hdl; lia|discriminate E1].
Qed.
Lemma expand_app f g s : expand ec (f ++ g) s = expand ec g (expand ec f s).
Proof. revert s. induction f as [|[k v] f IH]; intros s; [reflexivity|]. cbn [app expand]. apply IH. Qed.
Lemma replace_all_app f g s : replace_all (f ++ g) s = replace_all g (replace_all f s).
Proof. revert s. induction f as [|[k v] f IH]; intros s; [reflexivity|]. cbn [app replace_all]. apply IH. Qed.
Lemma expand_named nm nu : Forall2 inserts_named nm nu -> forall s, expand ec nm s = replace_all nu s.
Proof.
  induction 1 as [|[k v] [k2 u] nm nu [E Hv] _ IH]; intros s; [reflexivity|]. cbn [fst snd] in *. subst k2. cbn [expand replace_all].
  rewrite (proj2 (proj2 (inserts_ste ec parse v u Hv))). apply IH.
Qed.
Theorem macro_named_in_turn fn args named file pos e s body ps q d c0 e1 s1 vs us e2 s2 nm nu e3 s3 r :
  evs fn e s (NMClosure body (fresh_frame ps) d c0) e1 s1 ->
  evs (NList args) e1 s1 (NList vs) e2 s2 -> Forall2 inserts vs us ->
  named_evals ec parse named e2 s2 nm e3 s3 -> Forall2 inserts_named nm nu -> NoDup (names nm) -> incl (names nm) ps -> unnamed (names nm) ps q -> length vs = length q ->
  NoDup ps -> ~ In va_args ps ->
  fin (NApply fn args named file pos) e s r <->
  fin (NEval (NRaw (replace_all (nu ++ combine q us) body)) d (if Nat.leb (length ps) 1 then call_of fn else None)) e3 s3 r.
Proof.
  intros Hf Ha Hu Hn Hnu Hnd Hi Hq Hl Hd Hva. rewrite (apply_fin ec parse fn args named file pos e s _ e1 s1 _ e2 s2 r Hf Ha).
  unfold apply_rest. cbn [as_closure]. fold (mclo body (fresh_frame ps) d (call_of fn)).
  rewrite <- (app_nil_r (fresh_frame ps)). rewrite (macro_named_run body d file pos r named nm ps q vs [] (call_of fn) e2 s2 e3 s3); try assumption.
  - cbn [app]. rewrite expand_app, (expand_named nm nu Hnu), (expand_all ec parse q vs us Hu), replace_all_app. reflexivity.
  - constructor.
  - clear -Hnu. induction Hnu as [|[k v] [k2 u] nm nu [_ H] _ IH]; constructor; [exists u; exact H|exact IH].
  - clear -Hu. induction Hu as [|v u vs us H _ IH]; constructor; eauto.
  - intros p _ [].
Qed.
End Macro.

Lemma named_turns ec parse fn args named file pos e s body ps q d c0 e1 s1 vs us e2 s2 nm nu e3 s3 out :
  evals ec parse fn e s (NMClosure body (map (fun p => (p, NBound)) ps) d c0) e1 s1 ->
  evals ec parse (NList args) e1 s1 (NList vs) e2 s2 -> Forall2 inserts vs us ->
  named_evals ec parse named e2 s2 nm e3 s3 -> Forall2 inserts_named nm nu -> NoDup (names nm) -> incl (names nm) ps -> unnamed (names nm) ps q -> length vs = length q ->
  NoDup ps -> ~ In va_args ps -> replaced_in_turn (nu ++ combine q us) body out ->
  exists call, forall r, finishes ec parse (NApply fn args named file pos) e s r <-> finishes ec parse (NEval (NRaw out) d call) e3 s3 r.
Proof.
  intros Hf Ha Hu Hn Hnu Hnd Hi Hq Hl Hd Hva Hs. eexists. intros r. rewrite <- (turn_spec _ _ _ Hs).
  apply (macro_named_in_turn ec parse fn args named file pos e s body ps q d c0 e1 s1 vs us e2 s2 nm nu e3 s3 r); assumption.
Qed.
Lemma named_expands ec parse fn args named file pos e s items ps q d c0 e1 s1 vs us e2 s2 nm nu e3 s3 out :
  evals ec parse fn e s (NMClosure (written items) (map (fun p => (p, NBound)) ps) d c0) e1 s1 ->
  evals ec parse (NList args) e1 s1 (NList vs) e2 s2 -> Forall2 inserts vs us ->
  named_evals ec parse named e2 s2 nm e3 s3 -> Forall2 inserts_named nm nu -> NoDup (names nm) -> incl (names nm) ps -> unnamed (names nm) ps q -> length vs = length q ->
  NoDup ps -> ~ In va_args ps -> readable items -> Forall (fun p => ~ In 41 p) ps -> Forall loose us -> Forall (fun b => loose (snd b)) nu ->
  substituted (nu ++ combine q us) items out ->
  exists call, forall r, finishes ec parse (NApply fn args named file pos) e s r <-> finishes ec parse (NEval (NRaw out) d call) e3 s3 r.
Proof.
  intros Hf Ha Hu Hn Hnu Hnd Hi Hq Hl Hd Hva Hr Hp Hlu Hln Hs. eexists. intros r.
  rewrite <- (replace_all_spec (nu ++ combine q us) items out).
  - apply (macro_named_in_turn ec parse fn args named file pos e s (written items) ps q d c0 e1 s1 vs us e2 s2 nm nu e3 s3 r); assumption.
  - exact Hr.
  - apply Forall_app. split.
    + assert (Hi' : incl (names nu) ps).
      { intros x Hx. apply Hi. clear -Hnu Hx. revert Hx. induction Hnu as [|[k v] [k2 u] nm nu [E _] _ IH]; intros Hx; [exact Hx|]. cbn [names map fst] in *. destruct Hx as [Hx|Hx]; [left; congruence|right; apply IH, Hx]. }
      clear -Hi' Hln Hp. induction Hln as [|[k u] nu Hu _ IH]; constructor.
      * split; [|exact Hu]. rewrite Forall_forall in Hp. apply Hp, Hi'. left. reflexivity.
      * apply IH. intros x Hx. apply Hi'. right. exact Hx.
    + assert (Hpq : Forall (fun p => ~ In 41 p) q) by (clear -Hq Hp; induction Hq; inversion Hp; subst; auto).
      clear -Hpq Hlu. revert us Hlu. induction Hpq as [|p q Hp _ IH]; intros [|u us] Hlu; cbn [combine]; try constructor; inversion Hlu; subst; [split; assumption|apply IH; assumption].
  - exact Hs.
Qed.
