(** * Text without constructs: evaluation and the whole run *)
From Coq Require Import List NArith ZArith Bool Lia ZifyBool ZifyNat ZifyN.
From Verif Require Import PyStr PyStrFacts Ast Lex LexSpec LexFacts LexFacts2 Parse ParseSpec ParseFacts ParseFacts3 Final FinalFacts Eval Builtin Loc Shell EnvSpec EnvFacts CodecFacts PpSpec Pp PpFacts.
Import ListNotations.
Open Scope N_scope.

(** ** Evaluation *)
Lemma eval_piece ec parse n x w e s : piece_of_text x w -> yueval ec parse (S n) x e s = Ok (x, e, s).
Proof. intros H. inversion H; subst; reflexivity. Qed.
Lemma t_loop_pieces ec parse n l t e s : spells l t -> forall ind acc,
  t_loop (yueval ec parse (S n)) false ind O acc l e s = Ok (acc ++ l, e, s).
Proof.
  induction 1 as [|x l w t P S IH]; intros ind acc; [cbn; rewrite app_nil_r; reflexivity|].
  cbn [t_loop]. cbv zeta.
  replace (is_comment x) with false by (inversion P; reflexivity).
  unfold ebind at 1. rewrite (eval_piece ec parse n x w e s P).
  inversion P; subst; cbv iota; rewrite IH, <- app_assoc; reflexivity.
Qed.
Lemma spells_term l t : spells l t -> forallb is_term l = true.
Proof. induction 1 as [|x l w t P S IH]; [reflexivity|]. cbn. rewrite IH. inversion P; reflexivity. Qed.
Lemma spells_plain ec l t : spells l t -> concat (map (plain ec) l) = t.
Proof.
  induction 1 as [|x l w t P S IH]; [reflexivity|]. cbn [map concat]. rewrite IH. f_equal.
  inversion P; subst; cbn; try reflexivity. unfold get_trimmed. rewrite andb_false_r. reflexivity.
Qed.
Lemma eval_pieces ec parse n l t p q e s : e_browse ec = false -> spells l t ->
  yueval ec parse (S (S (S n))) (NText l p q) e s = Ok (NRaw t, e, s).
Proof.
  intros B S. change (yueval ec parse (Datatypes.S (Datatypes.S (Datatypes.S n))) (NText l p q) e s)
    with (eval_T ec (yueval ec parse (Datatypes.S n)) l (IndStr []) e s).
  unfold eval_T, ebind. rewrite (t_loop_pieces ec parse n l t e s S). cbn [app].
  cbn [is_term]. rewrite (spells_term l t S), B. cbn [plain]. rewrite (spells_plain ec l t S). reflexivity.
Qed.

(** ** Unified line ends *)
Lemma unified_permitted t t' : unified t t' -> Forall permitted t -> Forall permitted t'.
Proof.
  assert (L : permitted 10) by (left; left; reflexivity).
  induction 1; intros F; auto; inversion F as [|? ? P F']; subst.
  - inversion F'; auto.
  - auto.
  - auto.
Qed.
Lemma unified_occurs c d t t' : unified t t' -> c <> 10 -> d <> 10 -> occurs [c; d] t' -> occurs [c; d] t.
Proof.
  intros U Nc Nd. assert (St : forall t t' x r, unified t t' -> x <> 10 -> t' = x :: r -> exists r0, t = x :: r0 /\ unified r0 r).
  { clear. intros t t' x r U N E. subst t'. inversion U; subst; try congruence; eauto. }
  intros (a & b & E). revert t t' U E. induction a as [|x a IH]; intros t t' U E.
  - cbn in E. destruct (St _ _ _ _ U Nc E) as (r0 & -> & U'). destruct (St _ _ _ _ U' Nd eq_refl) as (r1 & -> & _).
    exists [], r1. reflexivity.
  - cbn in E. subst t'. inversion U as [|s1 t1 U1|s1 t1 N U1|c1 s1 t1 N U1]; subst;
      destruct (IH _ _ U1 eq_refl) as (a' & b' & ->).
    + exists (13 :: 10 :: a'), b'. reflexivity.
    + exists (13 :: a'), b'. reflexivity.
    + eexists (_ :: a'), b'. reflexivity.
Qed.
Lemma unified_in c t t' : unified t t' -> c <> 10 -> In c t' -> In c t.
Proof. induction 1; cbn; intuition congruence. Qed.
Lemma plain_unified t : plain_text t -> plain_text (unify_eol t).
Proof.
  intros (P & N1 & N2). pose proof (unify_eol_unified t) as U. split; [eapply unified_permitted; eauto|].
  split; intros O; [apply N1|apply N2]; eapply unified_occurs; eauto; discriminate.
Qed.
Lemma may_fail_unified cx t : may_fail cx (unify_eol t) -> may_fail cx t.
Proof.
  pose proof (unify_eol_unified t) as U. intros [[P H]|[P H]]; [left|right]; (split; [exact P|]).
  - destruct H; [left|right]; eapply unified_in; eauto; discriminate.
  - eapply unified_occurs; eauto; discriminate.
Qed.

(** ** The whole run *)
Definition ok_run (cfg : config) (t : text) : ppres :=
  PP true (replace_steady (reduce_emptiness (k_reduce cfg) t)) None None false 0.
Lemma run_plain w cfg d n t input output pr : plain_text t -> k_browse cfg = false ->
  no_header (run_ctx w cfg input output) (input_key input) (unify_eol t) ->
  pp w cfg (S d) (S (S (S n))) t input output pr = Ok (ok_run cfg (unify_eol t)) \/
  may_fail (run_ctx w cfg input output) t /\ pp w cfg (S d) (S (S (S n))) t input output pr = Ok (failed []).
Proof.
  intros P B H. unfold pp. set (cx := run_ctx w cfg input output) in *. set (s0 := run_start t input output pr).
  assert (D : exists dl, dict_get (input_key input) (y_source s0) = Some (dl, unify_eol t)).
  { eexists. unfold s0, run_start. cbn [y_source]. rewrite dict_get_set', teqb_refl. reflexivity. }
  destruct D as [dl D]. pose proof (parse_plain_text cx d (input_key input) s0 dl (unify_eol t) (plain_unified t P) H D) as K.
  destruct (yuparse cx (S d) (input_key input) s0) as [[l s']|e|].
  - left. destruct K as [-> S]. rewrite (eval_pieces (run_ectx w cfg input output pr) _ n l (unify_eol t) _ _ _ _ B S). reflexivity.
  - right. split; [apply may_fail_unified, K|reflexivity].
  - contradiction.
Qed.

(** ** The same with browsing *)
Definition homed (s : yst) (x : node) : Prop := forall a, fragment x a ->
  match s_file a with Some f => all_digits f = false /\ dict_get f (y_source s) <> None | None => True end.
Definition source_of (x : node) : source := match x with NPlain a _ _ | NStr a | NRemark a => a | _ => raw [] end.
Lemma files_files a b s : set_files a (set_files b s) = set_files a s. Proof. destruct s; reflexivity. Qed.
Lemma files_same s : s = set_files (y_files s) s. Proof. destruct s; reflexivity. Qed.
Lemma browse_piece ec x w s : piece_of_text x w -> homed s x ->
  exists r fs, plain_with_browse ec x s = Ok (r, set_files fs s) /\ r_txt r = w.
Proof.
  intros P H.
  assert (K : forall a, fragment x a -> s_txt a = w -> exists r fs, source_result a s = Ok (r, set_files fs s) /\ r_txt r = w).
  { intros a F T. specialize (H a F). unfold source_result. rewrite T.
    assert (Z0 : exists r fs, Ok (res_of w, s) = Ok (r, set_files fs s) /\ r_txt r = w).
    { exists (res_of w), (y_files s). split; [rewrite <- files_same|]; reflexivity. }
    destruct w as [|c w]; [exact Z0|]. destruct (s_file a) as [[|c0 f]|]; [exact Z0| |exact Z0].
    destruct H as [A D]. unfold bind, get_st. cbn [result_loc]. unfold bind, get_st.
    destruct (dict_get (c0 :: f) (y_source s)) as [[dl tx]|] eqn:E; [|congruence]. rewrite A.
    set (fn := match dl with DPath (c1 :: p) => c1 :: p | DSrc s0 => s_txt s0 | _ => c0 :: f end).
    unfold file_index. destruct (_ O (y_files s)) as [i|].
    - cbn. eexists _, (y_files s). split; [rewrite <- files_same|]; reflexivity.
    - cbn. eexists _, _. split; [reflexivity|reflexivity]. }
  inversion P as [t f p i|t f p|t f p|t f p]; subst; cbn [plain_with_browse].
  - unfold get_trimmed_with_browse. rewrite andb_false_r. apply K; [constructor|reflexivity].
  - apply K; [constructor|reflexivity].
  - apply K; [constructor|reflexivity].
  - apply K; [constructor|reflexivity].
Qed.
Fixpoint browse_list (ec : ectx) (l : list node) : M (list result) :=
  match l with
  | [] => ret []
  | y :: l' => bind (plain_with_browse ec y) (fun r => bind (browse_list ec l') (fun rs => ret (r :: rs)))
  end.
Lemma browse_text ec l i s : plain_with_browse ec (NT l i) s = bind (browse_list ec l) (fun rs => ret (concat_results rs)) s.
Proof.
  cbn [plain_with_browse]. unfold bind at 1.
  match goal with |- match ?a l s with _ => _ end = _ => assert (E : forall m st, a m st = browse_list ec m st) end.
  { induction m as [|y m IH]; intros st; [reflexivity|]. cbn [browse_list]. unfold bind.
    destruct (plain_with_browse ec y st) as [[r st']|e|]; try reflexivity. rewrite IH. reflexivity. }
  rewrite E. reflexivity.
Qed.
Lemma add_text_txt a b : r_txt (add_text a b) = r_txt a ++ r_txt b.
Proof. unfold add_text. destruct (r_txt b) eqn:E; [rewrite app_nil_r|]; reflexivity. Qed.
Lemma fold_add_text l : forall a, r_txt (fold_left add_text l a) = r_txt a ++ concat (map r_txt l).
Proof.
  induction l as [|b l IH]; intros a; cbn [fold_left map concat]; [rewrite app_nil_r; reflexivity|].
  rewrite IH, add_text_txt, <- app_assoc. reflexivity.
Qed.
Lemma concat_results_txt l : r_txt (concat_results l) = concat (map r_txt l).
Proof. destruct l as [|a l]; [reflexivity|]. cbn [concat_results map concat]. apply fold_add_text. Qed.
Lemma homed_files s fs x : homed s x -> homed (set_files fs s) x.
Proof. intros H a F. exact (H a F). Qed.
Lemma browse_pieces ec l t : spells l t -> forall s, Forall (homed s) l ->
  exists rs fs, browse_list ec l s = Ok (rs, set_files fs s) /\ concat (map r_txt rs) = t.
Proof.
  induction 1 as [|x l w t P S IH]; intros s H.
  - exists [], (y_files s). split; [rewrite <- files_same|]; reflexivity.
  - inversion H as [|? ? H1 H2]; subst. destruct (browse_piece ec x w s P H1) as (r & fs & E & T).
    destruct (IH (set_files fs s)) as (rs & fs' & E' & T').
    { eapply Forall_impl; [|exact H2]. intros y. apply homed_files. }
    exists (r :: rs), fs'. split.
    + cbn [browse_list]. unfold bind. rewrite E. cbv iota beta. rewrite E'. unfold ret. rewrite files_files. reflexivity.
    + cbn [map concat]. rewrite T, T'. reflexivity.
Qed.
Lemma eval_pieces_browse ec parse n l t p q e s : e_browse ec = true -> spells l t -> Forall (homed s) l ->
  exists b o fs, yueval ec parse (S (S (S n))) (NText l p q) e s = Ok (NResult t b o, e, set_files fs s).
Proof.
  intros B S H. change (yueval ec parse (Datatypes.S (Datatypes.S (Datatypes.S n))) (NText l p q) e s)
    with (eval_T ec (yueval ec parse (Datatypes.S n)) l (IndStr []) e s).
  unfold eval_T, ebind. rewrite (t_loop_pieces ec parse n l t e s S). cbn [app].
  cbn [is_term]. rewrite (spells_term l t S), B. unfold lift_m. rewrite browse_text. unfold bind.
  destruct (browse_pieces ec l t S s H) as (rs & fs & -> & T). unfold ret, eret.
  rewrite concat_results_txt, T. eauto.
Qed.

Lemma parse_here cx d key s decl t l s' : dict_get key (y_source s) = Some (decl, t) -> no_imports t ->
  yuparse cx (S d) key s = Ok (l, s') -> Forall (well_located (fun f t' => f = key /\ t' = t)) l.
Proof.
  intros D H E.
  assert (K : okm False (fun _ => True) (fun _ _ => True) (yuparse_with cx (yuparse cx d) key) s (fun l s' => Forall (good (fun _ f t' => f = key /\ t' = t) s') l)).
  { eapply ParseFacts2.yuparse_with_ok with (src := t); try exact D; auto.
    - intros (i & Li & Ei). rewrite (no_imports_at key t i H) in Ei. discriminate.
    - left. intros i Li Ei. rewrite (no_imports_at key t i H) in Ei. discriminate. }
  unfold okm in K. cbn [yuparse] in E. rewrite E in K. apply K.
Qed.

Lemma run_plain_browse w cfg d n t input output pr : plain_text t -> k_browse cfg = true ->
  all_digits (input_key input) = false ->
  no_header (run_ctx w cfg input output) (input_key input) (unify_eol t) ->
  (exists j, pp w cfg (S d) (S (S (S n))) t input output pr =
     Ok (PP true (replace_steady (r_txt (reduce_emptiness_browse (k_reduce cfg) (res_of (unify_eol t))))) (Some j) None false 0)) \/
  may_fail (run_ctx w cfg input output) t /\ pp w cfg (S d) (S (S (S n))) t input output pr = Ok (failed []).
Proof.
  intros P B A H. unfold pp. set (cx := run_ctx w cfg input output) in *. set (s0 := run_start t input output pr).
  assert (D : exists dl, dict_get (input_key input) (y_source s0) = Some (dl, unify_eol t)).
  { eexists. unfold s0, run_start. cbn [y_source]. rewrite dict_get_set', teqb_refl. reflexivity. }
  destruct D as [dl D]. pose proof (parse_plain_text cx d (input_key input) s0 dl (unify_eol t) (plain_unified t P) H D) as K.
  pose proof (parse_here cx d (input_key input) s0 dl (unify_eol t)) as L.
  destruct (yuparse cx (S d) (input_key input) s0) as [[l s']|e|].
  - left. destruct K as [-> S].
    assert (Ni : no_imports (unify_eol t)).
    { intros (a & b & E). apply (proj1 (proj2 (plain_unified t P))). exists a, (lit "import" ++ b). exact E. }
    specialize (L l s0 D Ni eq_refl).
    assert (Ho : Forall (homed s0) l).
    { eapply Forall_impl; [|exact L]. intros x [F _] a Fa. specialize (F a Fa). unfold located in F.
      destruct (s_file a) as [f|]; [|exact I]. destruct F as (_ & t' & _ & _ & [-> _] & _). split; [exact A|congruence]. }
    destruct (eval_pieces_browse (run_ectx w cfg input output pr) (yuparse cx (Datatypes.S d)) n l (unify_eol t) 0 0 [] s0 B S Ho) as (b & o & fs & ->).
    eexists. cbn -[replace_steady reduce_emptiness_browse unify_eol]. do 2 f_equal.
    unfold reduce_emptiness_browse. destruct (k_reduce cfg); reflexivity.
  - right. split; [apply may_fail_unified, K|reflexivity].
  - contradiction.
Qed.
