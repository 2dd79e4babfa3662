(** * An expression in its usual writing is written *)
From Coq Require Import List NArith ZArith Bool String Lia ZifyBool ZifyNat ZifyN.
From Verif Require Import PyStr LexSpec Ast Parse ProtectSpec LexFacts LexFacts2 NumFacts CodecFacts ExprSpec ExprFacts ExprFacts2 ExprFacts3.
Import ListNotations.
Open Scope list_scope.
Open Scope N_scope.

Section Show.
Variables (py : bool) (md : skip_mode).
Notation wf := (wf py md).
Notation spelled := (spelled py md).

Lemma space_white : Forall white [32].
Proof. constructor; [left; left; reflexivity|constructor]. Qed.
Lemma wf_follows e r : wf e -> delimited r -> follows e r.
Proof.
  intros W D. induction W as [z|q body Py Q Li|w Py Li|body P B|v V|l F|ev tight g args named W IH K A N|ps body N F W IH I|v body V W IH I|b e body B W IH W' IH'|c e1 e0 Wc IHc W1 IH1 Ic I1 W0 IH0|k t d D' H];
    cbn [follows]; try exact D; try exact I; try exact IH; try exact Logic.I.
  - destruct e0 as [e|]; [apply (IH0 e eq_refl)|exact IHc].
  - destruct k; try exact Logic.I. destruct D'.
Qed.
Lemma delimited_space r : delimited (32 :: r).
Proof. apply (delimited_gap [] 32); [constructor|chars..]. Qed.
Lemma delimited_close r : delimited (41 :: r).
Proof. apply (delimited_gap [] 41); [constructor|chars..]. Qed.
Lemma delimited_point : delimited [46].
Proof. split; [cbn; chars|]. intros d r E. discriminate E. Qed.

Lemma num_spelled z : spelled (ENum z) (Z_text z).
Proof.
  destruct z as [|q|q]; cbn [Z_text].
  - apply (sp_num py md [] (fun v => v) [48] 0%Z []); [constructor| |left; reflexivity]. change 0%Z with (value 10 [48]). apply (il_dec 48 []); [unfold decimal_digit; lia|constructor|right; constructor].
  - pose proof (sp_num py md [] (fun v => v) _ _ [] sg_none (pos_text_literal q) (or_introl eq_refl)) as H. cbn [app] in H. rewrite app_nil_r in H. exact H.
  - pose proof (sp_num py md [45] Z.opp _ _ [] sg_minus (pos_text_literal q) (or_introl eq_refl)) as H. cbn [app] in H. rewrite app_nil_r in H. exact H.
Qed.

Definition shown (it : bool * expr) : Prop := wf (snd it) /\ spelled (snd it) (show (snd it)).
Lemma items_shown l : Forall shown l -> items py md l (flat_map (fun it => 32 :: star (fst it) ++ show (snd it)) l ++ lit ")").
Proof.
  intros F. induction F as [|[b e] l [W S1] F IH]; [apply (it_end _ _ []); constructor|]. cbn [flat_map fst snd] in *. rewrite <- app_assoc. cbn [app]. rewrite <- app_assoc.
  apply (it_item py md b e l [32] [] (show e)); [apply space_white|constructor|exact S1| |exact IH].
  apply wf_follows; [exact W|]. destruct l as [|it l]; [apply delimited_close|apply delimited_space].
Qed.
Lemma named_shown tag named : Forall (fun it => identifier (fst it) /\ tag <> Some (fst it) /\ wf (snd it) /\ spelled (snd it) (show (snd it))) named ->
  arguments py md tag [] named (flat_map (fun it => 32 :: 92 :: fst it ++ 32 :: show (snd it)) named ++ lit ")").
Proof.
  intros F. induction F as [|[a e] l (I & T & W & S1) F IH]; [apply (ar_end _ _ _ []); constructor|]. cbn [flat_map fst snd] in *. rewrite <- app_assoc. cbn [app]. rewrite <- app_assoc. cbn [app].
  apply (ar_named py md tag a e [] l [32] [32] (show e)); [exact I|exact T|apply space_white|apply space_white|exact S1|cbn; chars| |exact IH].
  apply wf_follows; [exact W|]. destruct l as [|it l]; [apply delimited_close|apply delimited_space].
Qed.
Lemma args_shown tag args named : Forall (fun it => shown it /\ (fst it = false -> opens_named (snd it) = false)) args ->
  Forall (fun it => identifier (fst it) /\ tag <> Some (fst it) /\ wf (snd it) /\ spelled (snd it) (show (snd it))) named ->
  arguments py md tag args named (flat_map (fun it => 32 :: star (fst it) ++ show (snd it)) args
    ++ flat_map (fun it => 32 :: 92 :: fst it ++ 32 :: show (snd it)) named ++ lit ")").
Proof.
  intros F N. induction F as [|[b e] l [[W S1] O] F IH]; [apply named_shown, N|]. cbn [flat_map fst snd] in *. rewrite <- app_assoc. cbn [app]. rewrite <- app_assoc.
  apply (ar_item py md tag b e l named [32] [] (show e)); [apply space_white|constructor|exact S1|exact O| |exact IH].
  apply wf_follows; [exact W|]. destruct l as [|it l]; [|apply delimited_space]. destruct named as [|it named]; [apply delimited_close|apply delimited_space].
Qed.
Lemma rest_head {A B} (f : A -> text) (g : B -> text) l l' : (forall x, exists r, f x = 32 :: r) -> (forall x, exists r, g x = 32 :: r) ->
  exists c r, flat_map f l ++ flat_map g l' ++ lit ")" = c :: r /\ (c = 32 \/ c = 41).
Proof.
  intros Hf Hg. destruct l as [|x l]; cbn [flat_map app].
  - destruct l' as [|x l']; cbn [flat_map app]; [exists 41, []; auto|]. destruct (Hg x) as [r ->]. eexists 32, _. split; [reflexivity|auto].
  - destruct (Hf x) as [r ->]. eexists 32, _. split; [reflexivity|auto].
Qed.
Lemma app_shown ev tight f args named : wf f -> spelled f (show f) -> (ev = false -> tight = true -> Forall (fun w => ~ begins w (show f)) keywords) ->
  Forall (fun it => shown it /\ (fst it = false -> opens_named (snd it) = false)) args ->
  Forall (fun it => identifier (fst it) /\ closing_tag f <> Some (fst it) /\ wf (snd it) /\ spelled (snd it) (show (snd it))) named ->
  spelled (EApp ev tight f args named) (show (EApp ev tight f args named)).
Proof.
  intros W S1 K A N. cbn [show].
  destruct (rest_head (fun it => 32 :: star (fst it) ++ show (snd it)) (fun it : text * expr => 32 :: 92 :: fst it ++ 32 :: show (snd it)) args named) as (c & r & E & Hc); [eauto|eauto|].
  apply (sp_app py md ev tight f args named (if tight then [] else [32]) (show f)).
  - destruct tight; [constructor|apply space_white].
  - exact S1.
  - apply wf_follows; [exact W|]. rewrite E. destruct Hc as [-> | ->]; [apply delimited_space|apply delimited_close].
  - intros Ev G. destruct tight; [|discriminate G]. specialize (K Ev eq_refl). rewrite E.
    assert (Kw : Forall (fun w => Forall (fun x => x <> c) w) keywords).
    { destruct Hc as [-> | ->]; unfold keywords; cbn [map]; repeat (apply Forall_cons; [repeat (apply Forall_cons; [discriminate|]); apply Forall_nil|]); apply Forall_nil. }
    rewrite Forall_forall in *. intros w Hw B. apply (K w Hw). apply (begins_prefix w (show f) c r); [exact (Kw w Hw)|]. apply startswith_spec, B.
  - apply args_shown; assumption.
Qed.
Lemma late_shown l : Forall identifier l -> late_text l (flat_map (fun l => 92 :: l ++ lit "..") l).
Proof.
  intros F. induction F as [|a l I F IH]; [constructor|]. cbn [flat_map app]. rewrite <- app_assoc. apply (lt_name a l [] _ I (Forall_nil _) IH).
Qed.
Lemma binder_shown b : binder_ok b -> binder_text b (show_binder b).
Proof.
  destruct b as [a|l]; cbn [binder_ok show_binder]; [apply bt_name|]. intros [F N]. destruct F as [|a l I F]; [congruence|]. clear N.
  assert (X : exists ps, map fst ps = a :: l /\ params_ok ps /\ param_text ps = a ++ flat_map (fun a => 32 :: a) l).
  { revert a I. induction F as [|b l I' F IH]; intros a I.
    - exists [(a, [])]. cbn. rewrite !app_nil_r. repeat split; [exact I|constructor|left; reflexivity].
    - destruct (IH b I') as (ps & E1 & E2 & E3). exists ((a, [32]) :: ps). cbn [map fst params_ok param_text flat_map]. rewrite E1, E3. repeat split; [exact I|apply space_white|right; discriminate|exact E2]. }
  destruct X as (ps & E1 & E2 & E3). assert (N : ps <> []) by (intros ->; discriminate E1). pose proof (bt_names [32] ps space_white E2 N) as H.
  rewrite E1, E3 in H. cbn [flat_map app] in *. exact H.
Qed.
Lemma space_ends b r : binder_ends b (32 :: r).
Proof. destruct b; cbn; [chars|exact Logic.I]. Qed.
Lemma close_shown tag : closed_by tag (lit ")").
Proof. apply (cb_plain tag []). constructor. Qed.
Lemma let_shown b e body : binder_ok b -> wf e -> spelled e (show e) -> wf body -> spelled body (show body) -> spelled (ELet b e body) (show (ELet b e body)).
Proof.
  intros B W S1 W' S2. apply (sp_let py md b e body [32] (show_binder b) [32] (show e) [32] (show body) (lit ")"));
    [apply space_white|apply binder_shown, B|apply space_white|exact S1|apply space_white|exact S2|apply close_shown|apply space_ends|apply wf_follows; [exact W|apply delimited_space]|apply wf_follows; [exact W'|apply delimited_close]].
Qed.
Lemma cond_shown c e1 e0 : wf c -> spelled c (show c) -> wf e1 -> spelled e1 (show e1) -> is_former c = true -> is_former e1 = true ->
  (forall e, e0 = Some e -> spelled e (show e)) -> spelled (ECond c e1 e0) (show (ECond c e1 e0)).
Proof.
  intros Wc Sc W1 S1 Ic I1 S0. cbn [show]. destruct e0 as [e0|].
  - apply (sp_else py md c e1 e0 (show e1) [32] [32] (show c) [32] [32] (show e0)); try apply space_white; try assumption; [|apply S0; reflexivity|]; (apply wf_follows; [assumption|apply delimited_space]).
  - rewrite app_nil_r. apply (sp_then py md c e1 (show e1) [32] [32] (show c)); try apply space_white; try assumption. apply wf_follows; [assumption|apply delimited_space].
Qed.
Lemma par_shown late a d ps r : Forall identifier late -> identifier a -> (forall e, d = Some e -> wf e /\ spelled e (show e)) -> parameters py md ps r ->
  parameters py md (Param late a d :: ps) (show_param (Param late a d) ++ r).
Proof.
  intros L I D P. cbn [show_param]. rewrite <- app_assoc. cbn [app]. rewrite <- app_assoc. destruct d as [e|].
  - destruct (D e eq_refl) as [W S1]. rewrite <- app_assoc. apply (pm_default py md late _ a e (show e) [] []); [apply late_shown, L|exact I|exact S1|constructor| |constructor|exact P].
    apply wf_follows; [exact W|apply delimited_point].
  - apply (pm_plain py md late _ a ps []); [apply late_shown, L|exact I|constructor|exact P].
Qed.
Fixpoint wf_spelled e (H : wf e) {struct H} : spelled e (show e)
with param_spelled p (H : wf_param py md p) {struct H} : forall ps r, parameters py md ps r -> parameters py md (p :: ps) (show_param p ++ r).
Proof.
  - destruct H as [z|q body Py Q Li|w Py Li|body P B|v V|l F|ev tight g args named W K A N|ps body N F W I|v body V W I|b e body B W W'|c e1 e0 Wc W1 Ic I1 W0|k t d D H].
    + apply num_spelled.
    + apply sp_str; assumption.
    + apply sp_python; assumption.
    + apply (sp_quote py md (lit "(`")); [left; reflexivity|assumption..].
    + apply sp_var, V.
    + apply sp_list, items_shown. induction F as [|it l W F IH]; constructor; [split; [exact W|apply wf_spelled, W]|exact IH].
    + apply app_shown; [exact W|apply wf_spelled, W|exact K| |].
      * induction A as [|it l [W1 O] A IH]; constructor; [split; [split; [exact W1|apply wf_spelled, W1]|exact O]|exact IH].
      * induction N as [|it l (I1 & T & W1) A' IH]; constructor; [split; [exact I1|split; [exact T|split; [exact W1|apply wf_spelled, W1]]]|exact IH].
    + cbn [show]. apply sp_lambda; [exact N| |apply wf_spelled, W|exact I]. clear N. induction F as [|p l W1 F IH]; [constructor|]. cbn [flat_map]. apply param_spelled; [exact W1|exact IH].
    + apply (sp_lambdav py md v body [] [] []); try constructor; [exact V|apply wf_spelled, W|exact I].
    + apply let_shown; [exact B|exact W|apply wf_spelled, W|exact W'|apply wf_spelled, W'].
    + apply cond_shown; [exact Wc|apply wf_spelled, Wc|exact W1|apply wf_spelled, W1|exact Ic|exact I1|]. intros e E. apply wf_spelled, (W0 e E).
    + apply (sp_text py md k (opening k)); [destruct k; try exact D; destruct D|apply op_as|exact H].
  - destruct H as [late a d L I D|]; intros ps r P.
    + apply par_shown; [exact L|exact I| |exact P]. intros e E. split; [exact (D e E)|apply wf_spelled, (D e E)].
    + apply (pm_rest py md [] ps r); [constructor|exact P].
Qed.
Lemma construct_shown c : construct_ok py md c -> spelled_construct py md c (show_construct c).
Proof.
  intros [e W K|b e B W|v e V W|a ps body Ia Ip P B|body P B]; cbn [show_construct].
  - apply sc_expr; [apply wf_spelled, W|exact K].
  - apply (sc_set py md b e [32] (show_binder b) [32] (show e) (lit ")")); [apply space_white|apply binder_shown, B|apply space_white|apply wf_spelled, W|apply close_shown|apply space_ends|apply wf_follows; [exact W|apply delimited_close]].
  - destruct e as [e|].
    + apply (sc_emit_expr py md v e [32] [32] (show e) (lit ")")); [exact V|apply space_white|apply space_white|apply wf_spelled, W; reflexivity|apply delimited_space|apply close_shown|apply wf_follows; [apply W; reflexivity|apply delimited_close]].
    + apply (sc_emit py md v [32] []); [exact V|apply space_white|constructor].
  - assert (Po : params_ok (map (fun a => (a, [32])) ps)).
    { induction Ip as [|b ps Ib Ip IH]; [exact Logic.I|]. cbn [map params_ok]. repeat split; [exact Ib|apply space_white|right; discriminate|exact IH]. }
    assert (Pt : param_text (map (fun a => (a, [32])) ps) = flat_map (fun a => a ++ [32]) ps).
    { clear. induction ps as [|b ps IH]; [reflexivity|]. cbn [map param_text flat_map]. rewrite IH, <- app_assoc. reflexivity. }
    assert (Pf : map fst (map (fun a : text => (a, [32])) ps) = ps) by (rewrite map_map; cbn; apply map_id).
    pose proof (sc_macro py md a [32] [32] [] _ body Ia space_white space_white (Forall_nil _) Po P B) as X. rewrite Pt, Pf in X. exact X.
  - apply sc_removed; assumption.
Qed.
Lemma wr_construct k n c r d : construct_ok py md c -> written py md k n r d -> written py md k n (show_construct c ++ r) (inr (tree_construct c) :: d).
Proof. intros C. apply wr_spelled, construct_shown, C. Qed.
Lemma wr_quote k n body r d : Forall permitted body -> balanced body -> written py md k n r d -> written py md k n (lit "(`" ++ body ++ 41 :: r) (inr (NStr (raw body)) :: d).
Proof. apply wr_quotation. left. reflexivity. Qed.
End Show.
