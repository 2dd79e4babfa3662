(** Runs over pages and macros (proofs only). *)
From Coq Require Import List NArith ZArith Bool String Lia ZifyBool ZifyNat ZifyN.
From Verif Require QuoteFacts CodecFacts FormatSpec FormatFacts FormatFacts2.
From Verif Require Import PyStr LexSpec Ast Lex Parse Final Eval PyStrFacts EnvSpec EnvFacts EvalSpec EvalMono EvalKeep EvalPure EvalFacts EvalFacts2 EvalFacts3 EvalFacts4 ApplyFacts ApplyFacts2 ApplyFacts3 ApplyFacts4 DefSpec DefFacts PpSpec ExprSpec TrimSpec CoreSpec CoreFacts CoreFacts2 CoreCases RunSpec RunFacts.
Import ListNotations.
Open Scope list_scope.

Scheme page_mind := Minimality for page Sort Prop
with called_mind := Minimality for called Sort Prop
with read_mind := Minimality for read_pieces Sort Prop.
Combined Scheme page_all from page_mind, called_mind, read_mind.

Section Page.
Variables (ec : ectx) (parse : text -> M (list node)).
Hypothesis Hbr : e_browse ec = false.
Hypothesis Hparse : forall key s d t c, document (c_python (e_parse ec)) (c_skip (e_parse ec)) t c -> (c_python (e_parse ec) = true -> no_magic is_word t) ->
  dict_get key (y_source s) = Some (d, t) -> exists l, parse key s = Ok (l, s) /\ map bare l = runs true [] c.
Notation evs := (evals ec parse).
Lemma unquoted_spec cx u n : unquoted u n -> unq cx u = n.
Proof. intros [q w t Hq Hw|w t Hq Hw]; [apply QuoteFacts.unq_literal; assumption|apply QuoteFacts.unq_unquoted; assumption]. Qed.

(** ** Macros *)
Definition parsed (self : node -> E node) (l : list node) : E node :=
  match l with
  | [] => eret NNone
  | [x] => if is_set x then eret (NEmbed (NT l (IndStr []))) else self x
  | _ => if existsb is_set l then eret (NEmbed (NT l (IndStr []))) else self (NT l (IndStr []))
  end.
Lemma lstrip_spaces g x : Forall python_space g -> lstrip (g ++ x) = lstrip x.
Proof. intros H. induction H as [|c g Hc _ IH]; [reflexivity|]. cbn [app lstrip]. unfold python_space in Hc. rewrite Hc. exact IH. Qed.
Lemma rstrip_spaces h : Forall python_space h -> rstrip h = [].
Proof. intros H. induction H as [|c h Hc _ IH]; [reflexivity|]. cbn [rstrip]. rewrite IH. unfold python_space in Hc. rewrite Hc. reflexivity. Qed.
Lemma rstrip_inner u h : (forall r c, u = r ++ [c] -> ~ python_space c) -> Forall python_space h -> rstrip (u ++ h) = u.
Proof.
  intros Hu Hh. induction u as [|c u IH]; [apply rstrip_spaces, Hh|]. cbn [app rstrip]. rewrite IH by (intros r d E; apply (Hu (c :: r) d); rewrite E; reflexivity).
  destruct u as [|d u]; [|reflexivity]. pose proof (Hu [] c eq_refl) as K. unfold python_space in K. destruct (py_isspace c); [congruence|reflexivity].
Qed.
Lemma inner_strip w u : inner w u -> strip w = u.
Proof.
  intros (g & h & -> & Hg & Hh & H1 & H2). unfold strip. rewrite lstrip_spaces by exact Hg. destruct u as [|c u].
  - cbn [app]. replace (lstrip h) with (@nil char); [reflexivity|]. symmetry. rewrite <- (app_nil_r h). rewrite lstrip_spaces by exact Hh. reflexivity.
  - rewrite <- (rstrip_inner (c :: u) h H2 Hh) at 2. cbn [app lstrip]. pose proof (H1 c u eq_refl) as K. unfold python_space in K. destruct (py_isspace c); [congruence|reflexivity].
Qed.
Lemma code_value v u : code_of v u -> exists t, str_of v = Some t /\ u = match v with
    | NStr _ => let u := strip (unq (e_parse ec) t) in if startswith (lit "($") u then u else lit "($" ++ u ++ lit ")" | _ => t end.
Proof.
  intros [t|s w u0 Hq Hi Hb|s w u0 Hq Hi Hb]; eexists; (split; [reflexivity|]).
  - reflexivity.
  - rewrite (unquoted_spec _ _ _ Hq). cbv zeta. rewrite (inner_strip _ _ Hi). replace (startswith (lit "($") u0) with true; [reflexivity|]. symmetry. apply CodecFacts.startswith_spec, Hb.
  - rewrite (unquoted_spec _ _ _ Hq). cbv zeta. rewrite (inner_strip _ _ Hi). destruct (startswith (lit "($") u0) eqn:E; [|reflexivity]. exfalso. apply Hb. apply CodecFacts.startswith_spec, E.
Qed.
Lemma eval_read x y t u d call e s l n v e1 s1 : evs x e s y e s -> str_of y = Some t -> u = match y with
    | NStr _ => let u := strip (unq (e_parse ec) t) in if startswith (lit "($") u then u else lit "($" ++ u ++ lit ")" | _ => t end ->
  let key := nat_text (List.length (y_inclusion s)) in
  let s0 := set_source (dict_set key (match d with Some x => DSrc x | None => DNone end, u) (y_source s)) (set_inclusion (y_inclusion s ++ [call]) s) in
  parse key s0 = Ok (l, s0) -> parsed (yueval ec parse n) l e s0 = Ok (v, e1, s1) -> evs (NEval x d call) e s v e1 s1.
Proof.
  intros [k Hx] Hy Hu key s0 Hp Hr. set (n1 := Nat.max k n).
  assert (Hr' : parsed (yueval ec parse n1) l e s0 = Ok (v, e1, s1)).
  { destruct l as [|z [|z2 l]]; cbn [parsed] in *.
    - exact Hr.
    - destruct (is_set z); [exact Hr|]. rewrite (more_budget ec parse n n1) by (try (unfold n1; lia); rewrite Hr; discriminate). exact Hr.
    - destruct (existsb is_set (z :: z2 :: l)); [exact Hr|]. rewrite (more_budget ec parse n n1) by (try (unfold n1; lia); rewrite Hr; discriminate). exact Hr. }
  exists (S n1). change (eval_eval ec (yueval ec parse n1) parse x d call e s = Ok (v, e1, s1)).
  unfold eval_eval, ebind. rewrite (more_budget ec parse k n1) by (try (unfold n1; lia); rewrite Hx; discriminate).
  replace (yueval ec parse k x e s) with (@Ok (node * env * yst) (y, e, s)) by (symmetry; exact Hx). cbv beta iota. rewrite Hy. cbv beta iota zeta in Hu |- *. rewrite <- Hu.
  unfold lift_m, bind, get_st, modify. fold key. fold s0. rewrite Hp. exact Hr'.
Qed.
Lemma bare_inserts vs us : Forall2 FormatSpec.inserts (map bare vs) us -> Forall2 FormatSpec.inserts vs us.
Proof.
  revert us. induction vs as [|v vs IH]; intros us H; inversion H as [|? u ? us' H1 H2]; subst; constructor; [|apply IH; exact H2].
  destruct v; cbn [bare] in H1; inversion H1; subst; first [apply (FormatSpec.IN_atom s)|apply (FormatSpec.IN_str s)|constructor|destruct l; [constructor|discriminate]].
Qed.
Lemma bare_indented ind l : map bare (indented ind l) = indented ind (map bare l).
Proof.
  destruct ind as [|i|]; try reflexivity. destruct i as [|c i]; try reflexivity. cbn [indented]. rewrite !map_map. apply map_ext. intros x. destruct x; try reflexivity.
  cbn [bare]. unfold set_in. destruct i0; reflexivity.
Qed.
Lemma bare_begin x : bare x = NImportBegin -> x = NImportBegin.
Proof. destruct x; try discriminate; reflexivity. Qed.
Lemma bare_finish x : bare x = NImportEnd -> x = NImportEnd.
Proof. destruct x; try discriminate; reflexivity. Qed.
Lemma complete_bare l : complete l -> complete (map bare l).
Proof.
  intros H. induction H as [|x l H1 H2 _ IH|m l _ IH1 _ IH2]; cbn [map].
  - constructor.
  - apply CO_item; [intros E; apply H1, bare_begin, E|intros E; apply H2, bare_finish, E|exact IH].
  - rewrite map_app. cbn [map bare]. apply CO_import; assumption.
Qed.
Lemma bare_complete l : complete (map bare l) -> complete l.
Proof.
  intros H. remember (map bare l) as u eqn:E. revert l E. induction H as [|x u H1 H2 _ IH|m u _ IH1 _ IH2]; intros l E.
  - destruct l; [constructor|discriminate E].
  - destruct l as [|y l]; [discriminate E|]. injection E as -> ->. apply CO_item; [intros ->; apply H1; reflexivity|intros ->; apply H2; reflexivity|apply IH; reflexivity].
  - destruct l as [|y l]; [discriminate E|]. injection E as Ey E. symmetry in Ey, E. apply bare_begin in Ey as ->. apply map_eq_app in E as (a & b & -> & Ea & Eb).
    destruct b as [|z b]; [discriminate Eb|]. injection Eb as Ez Eb. apply bare_finish in Ez as ->. apply CO_import; [apply IH1; symmetry; exact Ea|apply IH2; symmetry; exact Eb].
Qed.
Lemma skip_value g a x' e s : skips ec g a -> bare x' = NApply (NVar (RList []) a) [] [] None 0 -> env_for ec parse g e -> evs x' e s NSkip e s.
Proof.
  intros (H1 & H2 & H3) Ex He. apply bare_apply in Ex as (f' & args' & named' & fi & po & -> & Ef & Ea & En). destruct named'; [|discriminate En]. apply map_eq_nil in Ea as ->.
  apply bare_variable in Ef as (r' & a' & -> & Er & Eb). apply no_region in Er as ->. assert (Ha' : s_txt a' = s_txt a) by (rewrite <- Eb; reflexivity).
  exists 2%nat. cbn [yueval eval_body]. unfold eval_apply, ebind. cbn [yueval eval_body]. unfold eval_var, ebind, get_env.
  replace (lookup e (s_txt a')) with (@None node) by (symmetry; apply (env_free _ _ _ _ He); rewrite Ha'; exact H2).
  unfold find_builtin, lift_m, bind, get_st, ret. rewrite Ha', H3. replace (is_special (s_txt a)) with true by (rewrite H1; reflexivity). cbv beta iota.
  cbn [eval_list as_closure]. unfold eret. cbn [as_closure named_unexpected]. unfold apply_special. cbv zeta. rewrite Ha', H1. reflexivity.
Qed.
(** what the outcome of a call is in the evaluator *)
Definition comes (v : node) (o : outcome) : Prop :=
  match o with
  | ONothing => v = NNone
  | OText u => is_term v = true /\ piece v v /\ plain ec v = u
  | OPieces l => exists l', v = NEmbed (NT l' (IndStr [])) /\ map bare l' = l
  | OMacro a ps body => NoDup ps /\ exists d, v = NEnv [(a, NMClosure body (no_values ps) d None)]
  end.
Definition Q_page (g : defs) (ind : indent) (fb : feedback) (l : list node) (t : text) (fb' : feedback) : Prop :=
  forall l' e s, map bare l' = l -> env_for ec parse g e -> fed s = fb ->
  exists w s', block ec parse ind l' e s w e s' /\ forallb is_term w = true /\ List.concat (map (plain ec) w) = t /\ fed s' = fb' /\ y_shrink s' = y_shrink s.
Definition Q_called (g : defs) (fb : feedback) (x : node) (o : outcome) (fb' : feedback) : Prop :=
  forall x' e s, bare x' = x -> env_for ec parse g e -> fed s = fb ->
  exists v s', evs x' e s v e s' /\ comes v o /\ fed s' = fb' /\ y_shrink s' = y_shrink s.
Definition Q_read (g : defs) (fb : feedback) (l : list node) (o : outcome) (fb' : feedback) : Prop :=
  forall l' e s, map bare l' = l -> env_for ec parse g e -> fed s = fb ->
  exists v s' n, parsed (yueval ec parse n) l' e s = Ok (v, e, s') /\ comes v o /\ fed s' = fb' /\ y_shrink s' = y_shrink s.
Lemma page_raw ind l' e s w s' : block ec parse ind l' e s w e s' -> forallb is_term w = true -> evs (NT l' ind) e s (NRaw (List.concat (map (plain ec) w))) e s'.
Proof. intros B1 B2. apply text_spec; [exact Hbr|]. exists w. split; [exact B1|]. cbn [is_term]. rewrite B2. reflexivity. Qed.
Lemma bare_sets l : existsb is_set (map bare l) = existsb is_set l.
Proof. induction l as [|x l IH]; [reflexivity|]. cbn [map existsb]. rewrite IH. destruct x; reflexivity. Qed.
Lemma no_sets l : Forall (fun z => ~ a_definition z) l -> existsb is_set l = false.
Proof. intros H. induction H as [|x l Hx _ IH]; [reflexivity|]. cbn [existsb]. rewrite IH. destruct x; try reflexivity. destruct Hx. exact Logic.I. Qed.
Lemma some_set l : Exists a_definition l -> existsb is_set l = true.
Proof. intros H. induction H as [x l Hx|x l _ IH]; cbn [existsb]; [destruct x; try destruct Hx; reflexivity|rewrite IH; apply orb_true_r]. Qed.
Lemma apply_comment x r ind w : as_applied ind x w = as_applied ind (bare x) w /\ (bare x = NApply (NVar (RList []) r) [] [] None 0 -> x <> NComment).
Proof. destruct x; split; try reflexivity; discriminate. Qed.
Lemma called_shape g fb x o fb' : called ec g fb x o fb' -> (exists f args, x = NApply f args [] None 0) \/ exists y, x = NEval y None None.
Proof. intros H. inversion H; subst; eauto. Qed.
Lemma called_comment g fb x o fb' x' : called ec g fb x o fb' -> bare x' = x -> x' <> NComment.
Proof. intros H E ->. destruct (called_shape _ _ _ _ _ H) as [(f & args & K)|(y & K)]; rewrite K in E; discriminate E. Qed.

Lemma pages_run :
  (forall g ind fb l t fb', page ec g ind fb l t fb' -> Q_page g ind fb l t fb') /\
  (forall g fb x o fb', called ec g fb x o fb' -> Q_called g fb x o fb') /\
  (forall g fb l o fb', read_pieces ec g fb l o fb' -> Q_read g fb l o fb').
Proof.
  destruct (all_runs ec parse Hbr) as (Rv & Ra & _ & Rd & _).
  apply (page_all ec Q_page Q_called Q_read); unfold Q_page, Q_called, Q_read.
  - (* end *) intros g ind fb l' e s El He Hf.
    apply map_eq_nil in El as ->. exists [], s. split; [constructor|]. repeat split; try reflexivity. exact Hf.
  - (* run *) intros g ind fb s0 i cut r w t fb' Hc _ IH l' e s El He Hf.
    destruct l' as [|x' l']; [discriminate El|]. injection El as Ex El. destruct x'; try discriminate Ex. cbn [bare] in Ex. injection Ex as Es -> ->.
    destruct (IH _ _ s El He Hf) as (ws & s' & B1 & B2 & B3 & B4). eexists (_ :: ws), s'. split; [|split; [|split; [|exact B4]]].
    + eapply BL_value with (x := NPlain _ _ _); [discriminate|exists 1%nat; reflexivity|apply PC_value; exact Logic.I|]. cbn [indent_then] in *. exact B1.
    + cbn [forallb as_applied is_term]. exact B2.
    + cbn [as_applied map List.concat plain]. rewrite B3. f_equal. apply cut_front in Hc. rewrite Hc, <- Es. reflexivity.
  - (* string *) intros g ind fb s0 r t fb' _ IH l' e s El He Hf.
    destruct l' as [|x' l']; [discriminate El|]. injection El as Ex El. destruct x'; try discriminate Ex. cbn [bare] in Ex. injection Ex as Es.
    destruct (IH _ _ s El He Hf) as (ws & s' & B1 & B2 & B3 & B4). eexists (_ :: ws), s'. split; [|split; [|split; [|exact B4]]].
    + eapply BL_value with (x := NStr _); [discriminate|exists 1%nat; reflexivity|apply PC_value; exact Logic.I|exact B1].
    + cbn [forallb as_applied is_term]. exact B2.
    + cbn [as_applied map List.concat plain]. rewrite B3, <- Es. reflexivity.
  - (* comment *) intros g ind fb s0 r t fb' _ IH l' e s El He Hf.
    destruct l' as [|x' l']; [discriminate El|]. injection El as Ex El. destruct x'; try discriminate Ex. cbn [bare] in Ex. injection Ex as Es.
    destruct (IH _ _ s El He Hf) as (ws & s' & B1 & B2 & B3 & B4). eexists (_ :: ws), s'. split; [|split; [|split; [|exact B4]]].
    + eapply BL_value with (x := NRemark _); [discriminate|exists 1%nat; reflexivity|apply PC_value; exact Logic.I|exact B1].
    + cbn [forallb as_applied is_term]. exact B2.
    + cbn [as_applied map List.concat plain]. rewrite B3, <- Es. reflexivity.
  - (* removed *) intros g ind fb r t fb' _ IH l' e s El He Hf.
    destruct l' as [|x' l']; [discriminate El|]. injection El as Ex El. destruct x'; try discriminate Ex.
    destruct (IH (trimmed_next ind l') e s) as (ws & s' & B1 & B2); [rewrite bare_trimmed, El; reflexivity|exact He|exact Hf|].
    exists ws, s'. split; [constructor; exact B1|exact B2].
  - (* applied *) intros g ind fb f args named v u w r t fb' Hv Hu Hw _ IH l' e s El He Hf.
    destruct l' as [|x' l']; [discriminate El|]. injection El as Ex El. destruct (Rv _ _ _ Hv _ _ Ex He s) as (v' & V1 & V2 & <-).
    apply bare_apply in Ex as (f' & args' & named' & fi & po & -> & _).
    destruct (IH _ _ s El He Hf) as (ws & s' & B1 & B2 & B3 & B4). eexists (_ :: ws), s'. split; [|split; [|split; [|exact B4]]].
    + eapply BL_value; [discriminate|exact V1|apply shape_piece, data_shape, V2|exact B1].
    + cbn [forallb as_applied is_term]. rewrite (data_term v' V2). exact B2.
    + cbn [as_applied map List.concat plain]. rewrite B3. f_equal. apply placed_trim in Hw. rewrite Hw. f_equal. apply (shown_plain ec (placed ec) (placed_trim ec)), bare_shown; assumption.
  - (* code *) intros g ind fb l u fb1 r t fb' _ IH1 _ IH l' e s El He Hf.
    destruct l' as [|x' l']; [discriminate El|]. injection El as Ex El. destruct x'; try discriminate Ex. cbn [bare] in Ex. injection Ex as Ex.
    destruct (IH1 _ _ s Ex He Hf) as (wu & s1 & C1 & C2 & C3 & C4 & C5). pose proof (page_raw _ _ _ _ _ _ C1 C2) as Hu. rewrite C3 in Hu.
    destruct (IH _ _ s1 El He C4) as (ws & s' & B1 & B2 & B3 & B4 & B5). exists (NRaw u :: ws), s'. split; [|split; [exact B2|split; [cbn [map List.concat plain py_str]; rewrite B3; reflexivity|split; [exact B4|congruence]]]].
    destruct Hu as [n Hu]. eapply BL_value with (x := NText _ _ _) (p := NRaw u); [discriminate|exists (S n); exact Hu|apply PC_value; exact Logic.I|exact B1].
  - (* let *) intros g ind fb lv x y v u r t fb' Hv Hu _ IH l' e s El He Hf.
    destruct l' as [|x' l']; [discriminate El|]. injection El as Ex El. destruct (Rv _ _ _ Hv _ _ Ex He s) as (v' & V1 & V2 & <-).
    destruct x'; try discriminate Ex.
    destruct (IH _ _ s El He Hf) as (ws & s' & B1 & B2 & B3 & B4). eexists (_ :: ws), s'. split; [|split; [|split; [|exact B4]]].
    + eapply BL_value; [discriminate|exact V1|apply shape_piece, data_shape, V2|exact B1].
    + cbn [forallb as_applied is_term]. rewrite (data_term v' V2). exact B2.
    + cbn [as_applied map List.concat]. rewrite B3. f_equal. apply (shown_plain ec (placed ec) (placed_trim ec)), bare_shown; assumption.
  - (* set *) intros g ind fb lv x es y r t fb' Ho Hd _ IH l' e s El He Hf.
    destruct l' as [|x' [|y' l']]; try discriminate El. injection El as Ex Ey El. destruct x'; try discriminate Ex. cbn [bare] in Ex. injection Ex as E1 E2.
    destruct (Rd _ _ _ _ Hd _ _ _ E1 E2 He s) as (Hn & v & f & V1 & V2 & V3).
    destruct (IH (trimmed_next ind (y' :: l')) (f :: e) s) as (ws & s' & B1 & B2 & B3 & B4); [rewrite bare_trimmed; cbn [map]; rewrite Ey, El; reflexivity|exact V3|exact Hf|].
    exists [NRaw t], s'. split; [|split; [reflexivity|split; [cbn [map List.concat plain py_str]; apply app_nil_r|exact B4]]].
    eapply BL_scope; [discriminate|eapply set_value; [exact Hn| |exact V1|exact V2]|apply scope_rest with (t := t) (ws := ws); assumption].
    rewrite (defined_names _ _ _ _ _ Hd) in Ho. rewrite <- E1 in Ho. destruct l; [|exact Logic.I]. cbn [no_setting]. intros K. apply Ho. cbn [bare_lval declared bare_src raw s_txt]. left. exact K.
  - (* set_last *) intros g ind fb lv x es Ho Hd l' e s El He Hf.
    destruct l' as [|x' [|y' l']]; try discriminate El. injection El as Ex. destruct x'; try discriminate Ex. cbn [bare] in Ex. injection Ex as E1 E2.
    destruct (Rd _ _ _ _ Hd _ _ _ E1 E2 He s) as (Hn & v & f & V1 & V2 & V3).
    exists [], (warn "useless assign" s). split; [|split; [reflexivity|split; [reflexivity|split; [exact Hf|reflexivity]]]].
    eapply BL_scope_end; [discriminate|eapply set_value; [exact Hn| |exact V1|exact V2]].
    rewrite (defined_names _ _ _ _ _ Hd) in Ho. rewrite <- E1 in Ho. destruct l; [|exact Logic.I]. cbn [no_setting]. intros K. apply Ho. cbn [bare_lval declared bare_src raw s_txt]. left. exact K.
  - (* output *) intros g ind o rep a x v u n r t fb' Ha Hv Hs Hq _ IH l' e s El He Hf.
    destruct l' as [|x' l']; [discriminate El|]. injection El as Ex El. destruct x'; try discriminate Ex. cbn [bare] in Ex. injection Ex as E1 E2. destruct l as [a'|]; [|discriminate E1]. injection E1 as E1.
    destruct (Rv _ _ _ Hv _ _ E2 He s) as (v' & V1 & V2 & V3).
    assert (Hs' : str_of v' = Some u).
    { destruct Hs as [-> |(s1 & -> & ->)]; destruct v'; try discriminate V3; cbn [bare] in V3; injection V3 as V3; subst; reflexivity. }
    destruct (IH l' e (set_output n s) El He) as (ws & s' & B1 & B2 & B3 & B4 & B5); [injection Hf as _ <-; reflexivity|].
    exists ws, s'. split; [|split; [exact B2|split; [exact B3|split; [exact B4|exact B5]]]].
    eapply BL_nothing; [discriminate| |left; reflexivity|exact B1]. destruct V1 as [k V1]. exists (S k). cbn [yueval eval_body]. unfold eval_set.
    replace (teqb (s_txt a') output_var) with true by (symmetry; apply teqb_eq; rewrite <- E1 in Ha; exact Ha).
    unfold ebind. match goal with |- context [yueval ec parse k ?x ?y ?z] => replace (yueval ec parse k x y z) with (Ok (v', e, s)) by (symmetry; exact V1) end.
    rewrite Hs'. unfold lift_m, modify. rewrite (unquoted_spec _ _ _ Hq). reflexivity.
  - (* passage *) intros g ind o rep a b x vs k v y r t fb' Ho Hb Hab Hbg Hbb Hv Hk Hn _ IH l' e s El He Hf.
    destruct l' as [|x' [|y' l']]; try discriminate El. injection El as Ex Ey El. destruct x'; try discriminate Ex. cbn [bare] in Ex. injection Ex as E1 E2. destruct l as [a'|]; [|discriminate E1]. injection E1 as E1.
    apply bare_apply in E2 as (f' & args' & named' & fi & po & -> & Ef & Ea & En). destruct named'; [|discriminate En]. apply bare_variable in Ef as (r' & b' & -> & Er & Eb). apply no_region in Er as ->.
    destruct args' as [|x' [|? ?]]; try discriminate Ea. injection Ea as Ea.
    assert (Ha' : s_txt a' = s_txt a) by (rewrite <- E1; reflexivity). assert (Hb' : s_txt b' = s_txt b) by (rewrite <- Eb; reflexivity).
    assert (He0 : env_for ec parse ((s_txt a, EOpen) :: g) (no_values [s_txt a'] :: e)).
    { change ((s_txt a, EOpen) :: g) with ([(s_txt a, EOpen)] ++ g). apply EN_values; [|exact He]. constructor; [split; [symmetry; exact Ha'|reflexivity]|constructor]. }
    destruct (Rv _ _ _ Hv _ _ Ea He0 s) as (v' & V1 & V2 & V3). destruct v'; try discriminate V3. cbn [bare] in V3. injection V3 as V3. rename l into vs'. inversion V2 as [| | | | | | |? Dv]; subst vs.
    assert (Hel : exists w', nth_error vs' k = Some w' /\ bare w' = v).
    { rewrite nth_error_map in Hn. destruct (nth_error vs' k) as [w'|]; [|discriminate Hn]. injection Hn as Hn. eauto. }
    destruct Hel as (w' & Hw1 & Hw2). assert (Dw : data w') by (rewrite Forall_forall in Dv; apply Dv; eapply nth_error_In, Hw1).
    rewrite map_length in *.
    destruct (IH (trimmed_next ind (y' :: l')) ([(s_txt a', w')] :: e) (set_repeat (Nat.ltb (S k) (List.length vs')) s)) as (ws & s' & B1 & B2 & B3 & B4 & B5).
    { rewrite bare_trimmed; cbn [map]; rewrite Ey, El; reflexivity. }
    { change ((s_txt a, EValue v) :: g) with ([(s_txt a, EValue v)] ++ g). apply EN_values; [|exact He]. constructor; [|constructor]. split; [symmetry; exact Ha'|]. split; [exact Dw|exact Hw2]. }
    { unfold fed in *. cbn [set_repeat y_fb_output y_fb_repeat]. congruence. }
    exists [NRaw t], s'. split; [|split; [reflexivity|split; [cbn [map List.concat plain py_str]; apply app_nil_r|split; [exact B4|exact B5]]]].
    assert (HP : evs (NApply (NVar (RList []) b') [x'] [] fi po) (no_values [s_txt a'] :: e) s w' (no_values [s_txt a'] :: e) (set_repeat (Nat.ltb (S k) (List.length vs')) s)).
    { rewrite <- (nth_error_nth _ _ NNone Hw1).
      apply passage_spec with (a := b') (e1 := no_values [s_txt a'] :: e) (s1 := s) (v := NList vs'); [|rewrite Hb'; exact Hb|apply evs_list; [constructor; [exact V1|constructor]|constructor; [exact V2|constructor]]|reflexivity|exact Hk].
      exists 1%nat. cbn [yueval eval_body]. unfold eval_var, ebind, get_env.
      replace (lookup (no_values [s_txt a'] :: e) (s_txt b')) with (@None node).
      - unfold find_builtin, lift_m, bind, get_st, ret. rewrite Hb', Hbb. replace (is_special (s_txt b)) with true by (rewrite Hb; reflexivity). reflexivity.
      - symmetry. apply (env_free _ _ _ _ He0). rewrite Hb'. cbn [names map fst In]. intros [K|K]; [exact (Hab K)|exact (Hbg K)]. }
    eapply BL_scope; [discriminate|eapply set_value with (lv := LAtom a'); [cbn [declared]; constructor; [intros []|constructor]|cbn [no_setting]; rewrite Ha'; exact Ho|exact HP|constructor]|].
    apply scope_rest with (t := t) (ws := ws); assumption.
  - (* macro *) intros g ind fb a ps body y r t fb' Hn _ IH l' e s El He Hf.
    destruct l' as [|x' [|y' l']]; try discriminate El. injection El as Ex Ey El. destruct x'; try discriminate Ex. cbn [bare] in Ex. injection Ex as E1 E2 E3. subst a ps body0.
    assert (Hn' : NoDup (map s_txt pars)) by (rewrite map_map in Hn; exact Hn).
    destruct (IH (trimmed_next ind (y' :: l')) ([(s_txt name, NMClosure body (no_values (map s_txt pars)) (Some name) None)] :: e) s) as (ws & s' & B1 & B2 & B3 & B4).
    { rewrite bare_trimmed; cbn [map]; rewrite Ey, El; reflexivity. }
    { rewrite map_map. apply EN_macro; [exact He|exact Hn']. }
    { exact Hf. }
    exists [NRaw t], s'. split; [|split; [reflexivity|split; [cbn [map List.concat plain py_str]; apply app_nil_r|exact B4]]].
    eapply BL_scope; [discriminate|apply macro_value, Hn'|]. apply scope_rest with (t := t) (ws := ws); assumption.
  - (* macro at the end *) intros g ind fb a ps body Hn l' e s El He Hf.
    destruct l' as [|x' [|y' l']]; try discriminate El. injection El as Ex. destruct x'; try discriminate Ex. cbn [bare] in Ex. injection Ex as E1 E2 E3. subst a ps body0.
    assert (Hn' : NoDup (map s_txt pars)) by (rewrite map_map in Hn; exact Hn).
    exists [], (warn "useless assign" s). split; [|split; [reflexivity|split; [reflexivity|split; [exact Hf|reflexivity]]]].
    eapply BL_scope_end; [discriminate|apply macro_value, Hn'].
  - (* nothing *) intros g ind fb x fb1 r t fb' Hc IHc _ IH l' e s El He Hf.
    destruct l' as [|x' l']; [discriminate El|]. injection El as Ex El. destruct (IHc _ _ s Ex He Hf) as (v & s1 & V1 & -> & V3 & V4).
    destruct (IH _ _ s1 El He V3) as (ws & s' & B1 & B2 & B3 & B4 & B5). exists ws, s'. split; [|split; [exact B2|split; [exact B3|split; [exact B4|congruence]]]].
    eapply BL_nothing; [exact (called_comment _ _ _ _ _ _ Hc Ex)|exact V1|left; reflexivity|exact B1].
  - (* text *) intros g ind fb x u fb1 w r t fb' Hc IHc Hw _ IH l' e s El He Hf.
    destruct l' as [|x' l']; [discriminate El|]. injection El as Ex El. destruct (IHc _ _ s Ex He Hf) as (v & s1 & V1 & (V2 & V3 & V4) & V5 & V6).
    pose proof (called_comment _ _ _ _ _ _ Hc Ex) as Hne. apply called_shape in Hc.
    destruct (IH _ _ s1 El He V5) as (ws & s' & B1 & B2 & B3 & B4 & B5). eexists (_ :: ws), s'. split; [|split; [|split; [|split; [exact B4|congruence]]]].
    + eapply BL_value with (x := x'); [exact Hne|exact V1|exact V3|]. destruct Hc as [(f & args & ->)|(y & ->)]; destruct x'; try discriminate Ex; exact B1.
    + cbn [forallb]. rewrite B2. rewrite andb_true_r. destruct x'; exact V2.
    + cbn [map List.concat]. rewrite B3. f_equal. destruct Hc as [(f & args & ->)|(y & ->)]; destruct x'; try discriminate Ex; cbn [an_application as_applied plain] in *.
      * apply placed_trim in Hw. rewrite Hw. f_equal. exact V4.
      * rewrite Hw. exact V4.
  - (* pieces *) intros g ind fb x l fb1 r t fb' Hc IHc _ IH l' e s El He Hf.
    destruct l' as [|x' l']; [discriminate El|]. injection El as Ex El. destruct (IHc _ _ s Ex He Hf) as (v & s1 & V1 & (l1 & -> & V2) & V3 & V4).
    destruct (IH (indented ind l1 ++ l') e s1) as (ws & s' & B1 & B2 & B3 & B4 & B5); [rewrite map_app, bare_indented, V2, El; reflexivity|exact He|exact V3|].
    pose proof (page_raw _ _ _ _ _ _ B1 B2) as Hr. rewrite B3 in Hr.
    exists [NRaw t], s'. split; [|split; [reflexivity|split; [cbn [map List.concat plain py_str]; apply app_nil_r|split; [exact B4|congruence]]]].
    change [NRaw t] with (pieces_of (NRaw t)). eapply BL_embed; [exact (called_comment _ _ _ _ _ _ Hc Ex)|exact V1|exact Hr].
  - (* macro from a call *) intros g ind fb x a ps body fb1 y r t fb' Hc IHc _ IH l' e s El He Hf.
    destruct l' as [|x' [|y' l']]; try discriminate El. injection El as Ex Ey El. destruct (IHc _ _ s Ex He Hf) as (v & s1 & V1 & (Hn & d & ->) & V3 & V4).
    destruct (IH (trimmed_next ind (y' :: l')) ([(a, NMClosure body (no_values ps) d None)] :: e) s1) as (ws & s' & B1 & B2 & B3 & B4 & B5).
    { rewrite bare_trimmed; cbn [map]; rewrite Ey, El; reflexivity. }
    { apply EN_macro; [exact He|exact Hn]. }
    { exact V3. }
    exists [NRaw t], s'. split; [|split; [reflexivity|split; [cbn [map List.concat plain py_str]; apply app_nil_r|split; [exact B4|congruence]]]].
    eapply BL_scope; [exact (called_comment _ _ _ _ _ _ Hc Ex)|exact V1|]. apply scope_rest with (t := t) (ws := ws); assumption.
  - (* macro from a call, at the end *) intros g ind fb x a ps body fb1 Hc IHc l' e s El He Hf.
    destruct l' as [|x' [|y' l']]; try discriminate El. injection El as Ex. destruct (IHc _ _ s Ex He Hf) as (v & s1 & V1 & (Hn & d & ->) & V3 & V4).
    exists [], (warn "useless assign" s1). split; [|split; [reflexivity|split; [reflexivity|split; [exact V3|exact V4]]]].
    eapply BL_scope_end; [exact (called_comment _ _ _ _ _ _ Hc Ex)|exact V1].
  - (* an import begins *) intros g ind fb r t fb' _ IH l' e s El He Hf. destruct l' as [|x' l']; [discriminate El|]. injection El as Ex El. apply bare_begin in Ex as ->.
    destruct (IH _ _ s El He Hf) as (ws & s' & B1 & B2). exists ws, s'. split; [|exact B2]. eapply BL_nothing; [discriminate|exists 1%nat; reflexivity|right; left; reflexivity|exact B1].
  - (* an import ends *) intros g ind fb r t fb' _ IH l' e s El He Hf. destruct l' as [|x' l']; [discriminate El|]. injection El as Ex El. apply bare_finish in Ex as ->.
    destruct (IH _ _ s El He Hf) as (ws & s' & B1 & B2). exists ws, s'. split; [|exact B2]. eapply BL_nothing; [discriminate|exists 1%nat; reflexivity|right; right; reflexivity|exact B1].
  - (* skip *) intros g ind fb a m l t fb' Hk Hm _ IH l' e s El He Hf. destruct l' as [|x' l']; [discriminate El|]. injection El as Ex El.
    apply map_eq_app in El as (m' & l1 & -> & Em & El). destruct l1 as [|y' l1]; [discriminate El|]. injection El as Ey El. apply bare_finish in Ey as ->.
    destruct (IH _ _ s El He Hf) as (ws & s' & B1 & B2). exists ws, s'. split; [|exact B2]. rewrite <- Em in Hm. apply bare_complete in Hm.
    eapply BL_skip; [intros ->; discriminate Ex|eapply skip_value; eassumption|exact Hm|exact B1].
  - (* skip to the end *) intros g ind fb a r Hk Hm l' e s El He Hf. destruct l' as [|x' l']; [discriminate El|]. injection El as Ex El.
    exists [], s. split; [|split; [reflexivity|split; [reflexivity|split; [exact Hf|reflexivity]]]].
    eapply BL_skip_all; [intros ->; discriminate Ex|eapply skip_value; eassumption|]. intros m1 l1 -> Hc. rewrite <- El, map_app in Hm. apply (Hm (map bare m1) (map bare l1) eq_refl). apply complete_bare, Hc.
  - (* call *) intros g later m ps body before fb r a args vs us u c o fb' Eg Hl Ha Hva Hvs Hu Hlen Hs Hdoc Hmag _ IH x' e s Ex He Hf.
    apply bare_apply in Ex as (f' & args' & named' & fi & po & -> & Ef & Eargs & En). destruct named'; [|discriminate En]. apply bare_variable in Ef as (r' & a' & -> & Er & Ea).
    assert (Ha' : s_txt a' = m) by (rewrite <- Ha, <- Ea; reflexivity).
    destruct (Ra _ _ _ Hvs _ _ Eargs He s) as (vs' & W1 & W2 & W3). destruct (env_macro ec parse _ _ He _ _ _ _ _ Eg Hl) as (Hn & d & Hlk).
    set (call := if Nat.leb (List.length ps) 1 then call_of (NVar r' a') else None).
    set (key := nat_text (List.length (y_inclusion s))).
    set (s0 := set_source (dict_set key (match d with Some x => DSrc x | None => DNone end, u) (y_source s)) (set_inclusion (y_inclusion s ++ [call]) s)).
    destruct (Hparse key s0 (match d with Some x => DSrc x | None => DNone end) u c Hdoc Hmag) as (l & Hl1 & Hl2); [unfold s0; cbn [y_source set_source]; rewrite CodecFacts.dict_get_set', teqb_refl; reflexivity|].
    destruct (IH _ e s0 Hl2 He Hf) as (v & s' & n & R1 & R2 & R3 & R4). exists v, s'. split; [|split; [exact R2|split; [exact R3|exact R4]]].
    apply evals_fin.
    apply (FormatFacts2.macro_in_turn ec parse (NVar r' a') args' fi po e s body ps d None e s vs' us e s u); try assumption.
    + exists 1%nat. cbn [yueval eval_body]. unfold eval_var, ebind, get_env. rewrite Ha', Hlk. reflexivity.
    + apply evs_list; assumption.
    + apply bare_inserts. rewrite W3. exact Hu.
    + rewrite <- Hlen, <- (map_length bare vs'), W3. clear -Hu. induction Hu; cbn [List.length]; congruence.
    + apply FormatFacts.turn_spec, Hs.
    + apply evals_fin. eapply (eval_read _ (NRaw u) u u); [exists 1%nat; reflexivity|reflexivity|reflexivity|exact Hl1|exact R1].
  - (* evaluation *) intros g fb x v u c o fb' Hv Hco Hdoc Hmag _ IH x' e s Ex He Hf.
    destruct x'; try discriminate Ex. cbn [bare] in Ex. injection Ex as Ex. destruct (Rv _ _ _ Hv _ _ Ex He s) as (v' & V1 & V2 & V3).
    assert (Hco' : code_of v' u).
    { clear -Hco V3. destruct Hco as [t|s w u Hq Hi Hb|s w u Hq Hi Hb]; destruct v'; try discriminate V3; cbn [bare] in V3; injection V3 as V3; subst.
      - constructor.
      - eapply CO_application; eassumption.
      - eapply CO_inside; eassumption. }
    destruct (code_value _ _ Hco') as (t & Ht & Hu).
    set (key := nat_text (List.length (y_inclusion s))).
    set (s0 := set_source (dict_set key (match decl with Some x => DSrc x | None => DNone end, u) (y_source s)) (set_inclusion (y_inclusion s ++ [call]) s)).
    destruct (Hparse key s0 (match decl with Some x => DSrc x | None => DNone end) u c Hdoc Hmag) as (l & Hl1 & Hl2); [unfold s0; cbn [y_source set_source]; rewrite CodecFacts.dict_get_set', teqb_refl; reflexivity|].
    destruct (IH _ e s0 Hl2 He Hf) as (w & s' & n & R1 & R2 & R3 & R4). exists w, s'. split; [|split; [exact R2|split; [exact R3|exact R4]]].
    eapply (eval_read _ v' t u); [exact V1|exact Ht|exact Hu|exact Hl1|exact R1].
  - (* nothing read *) intros g fb l' e s El He Hf. apply map_eq_nil in El as ->. exists NNone, s, O. split; [reflexivity|]. split; [reflexivity|]. split; [exact Hf|reflexivity].
  - (* a definition in it *) intros g fb l Hx l' e s El He Hf. exists (NEmbed (NT l' (IndStr []))), s, O. split; [|split; [exists l'; split; [reflexivity|exact El]|split; [exact Hf|reflexivity]]].
    apply some_set in Hx. rewrite <- El, bare_sets in Hx. destruct l' as [|x [|y l']]; [discriminate Hx| |]; cbn [parsed]; [cbn [existsb] in Hx; rewrite orb_false_r in Hx|]; rewrite Hx; reflexivity.
  - (* many *) intros g fb x y l t fb' Hx _ IH l' e s El He Hf. destruct (IH _ _ s El He Hf) as (w & s' & B1 & B2 & B3 & B4 & B5). pose proof (page_raw _ _ _ _ _ _ B1 B2) as [n Hr]. rewrite B3 in Hr.
    exists (NRaw t), s', n. split; [|split; [split; [reflexivity|split; [apply PC_value; exact Logic.I|reflexivity]]|split; [exact B4|exact B5]]].
    apply no_sets in Hx. rewrite <- El, bare_sets in Hx. destruct l' as [|x1 [|y1 l1]]; try discriminate El. cbn [parsed]. rewrite Hx. exact Hr.
  - (* run *) intros g fb s0 i cut w Hc l' e s El He Hf. destruct l' as [|x' [|y' l']]; try discriminate El. injection El as Ex. destruct x'; try discriminate Ex. cbn [bare] in Ex. injection Ex as Es -> ->.
    eexists _, s, 1%nat. split; [reflexivity|]. split; [|split; [exact Hf|reflexivity]]. split; [reflexivity|]. split; [apply PC_value; exact Logic.I|]. apply cut_front in Hc. rewrite Hc, <- Es. reflexivity.
  - (* string *) intros g fb s0 l' e s El He Hf. destruct l' as [|x' [|y' l']]; try discriminate El. injection El as Ex. destruct x'; try discriminate Ex. cbn [bare] in Ex. injection Ex as Es.
    eexists _, s, 1%nat. split; [reflexivity|]. split; [|split; [exact Hf|reflexivity]]. split; [reflexivity|]. split; [apply PC_value; exact Logic.I|]. rewrite <- Es. reflexivity.
  - (* comment *) intros g fb s0 l' e s El He Hf. destruct l' as [|x' [|y' l']]; try discriminate El. injection El as Ex. destruct x'; try discriminate Ex. cbn [bare] in Ex. injection Ex as Es.
    eexists _, s, 1%nat. split; [reflexivity|]. split; [|split; [exact Hf|reflexivity]]. split; [reflexivity|]. split; [apply PC_value; exact Logic.I|]. rewrite <- Es. reflexivity.
  - (* value *) intros g fb x v u Hx Hv Hu l' e s El He Hf. destruct l' as [|x' [|y' l']]; try discriminate El. injection El as Ex.
    destruct (Rv _ _ _ Hv _ _ Ex He s) as (v' & [n V1] & V2 & <-). exists v', s, n. split; [|split; [|split; [exact Hf|reflexivity]]].
    + cbn [parsed]. destruct x'; try exact V1. cbn [bare] in Ex. subst x. destruct Hx.
    + split; [exact (data_term v' V2)|]. split; [apply shape_piece, data_shape, V2|]. apply (shown_plain ec (placed ec) (placed_trim ec)), bare_shown; assumption.
  - (* call *) intros g fb x o fb' Hc IH l' e s El He Hf. destruct l' as [|x' [|y' l']]; try discriminate El. injection El as Ex.
    destruct (IH _ _ s Ex He Hf) as (v & s' & [n V1] & V2 & V3 & V4). exists v, s', n. split; [|split; [exact V2|split; [exact V3|exact V4]]].
    apply called_shape in Hc. cbn [parsed]. destruct Hc as [(f & args & ->)|(y & ->)]; destruct x'; try discriminate Ex; exact V1.
  - (* macro *) intros g fb a ps body Hn l' e s El He Hf. destruct l' as [|x' [|y' l']]; try discriminate El. injection El as Ex. destruct x'; try discriminate Ex. cbn [bare] in Ex. injection Ex as E1 E2 E3. subst a ps body0.
    assert (Hn' : NoDup (map s_txt pars)) by (rewrite map_map in Hn; exact Hn).
    destruct (macro_value ec parse name pars body e s Hn') as [n V]. eexists _, s, n. split; [cbn [parsed is_set]; exact V|]. split; [|split; [exact Hf|reflexivity]].
    rewrite map_map. split; [exact Hn'|]. exists (Some name). reflexivity.
Qed.
Lemma page_block g ind fb l t fb' : page ec g ind fb l t fb' -> forall l' e s, map bare l' = l -> env_for ec parse g e -> fed s = fb ->
  exists w s', block ec parse ind l' e s w e s' /\ forallb is_term w = true /\ List.concat (map (plain ec) w) = t /\ fed s' = fb' /\ y_shrink s' = y_shrink s.
Proof. intros H. apply (proj1 pages_run _ _ _ _ _ _ H). Qed.
Lemma page_text fb l t fb' l' s sq q : page ec [] (IndStr []) fb l t fb' -> map bare l' = l -> fed s = fb ->
  exists s', evs (NText l' sq q) [] s (NRaw t) [] s' /\ fed s' = fb' /\ y_shrink s' = y_shrink s.
Proof.
  intros Hp El Hf. destruct (page_block _ _ _ _ _ _ Hp l' [] s El (EN_nil _ _) Hf) as (w & s' & B1 & B2 & B3 & B4). exists s'. split; [|exact B4].
  assert (K : evs (NT l' (IndStr [])) [] s (NRaw t) [] s').
  { apply text_spec; [exact Hbr|]. exists w. split; [exact B1|]. cbn [is_term]. rewrite B2. cbn [plain]. rewrite B3. reflexivity. }
  destruct K as [n K]. exists (S n). exact K.
Qed.
End Page.
