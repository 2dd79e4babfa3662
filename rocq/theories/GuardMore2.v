(** * Variables with a first value, and C declarations for C++ (proofs only) *)
From Coq Require Import List NArith ZArith Bool String Lia ZifyBool ZifyNat ZifyN.
From Verif Require FormatSpec FormatFacts FormatCases TextSpec.
From Verif Require Import PyStr PyStrFacts Ast Lex LexSpec ProtectSpec LexFacts LexFacts2 LexCases Parse ParseSpec Final FinalSpec Shell ShellSpec Eval Builtin EnvSpec EvalSpec TrimSpec Pp PpSpec ExprSpec ExprShow DocSpec ExprCases CoreSpec CoreFacts RunSpec RunCases SheetSpec SheetFacts SheetCases ProtectCases StdSpec StdCases StdCases2 StdCases3 GuardSpec GuardCases GuardUse GuardMore GuardFinal.
Import ListNotations.
Open Scope list_scope.
Open Scope N_scope.

Lemma loose_kept m n w r u : ~ In 36 w -> (forall c s, r = c :: s -> c <> 36) -> FormatSpec.replaced (FormatSpec.mark m) n r u -> FormatSpec.replaced (FormatSpec.mark m) n (w ++ r) (w ++ u).
Proof.
  intros H Hr Hk. induction w as [|c w IH]; [exact Hk|]. cbn [app]. apply FormatSpec.RE_kept; [|apply IH; intros Hi; apply H; right; exact Hi].
  intros x E. injection E as _ E. destruct w as [|d w]; cbn [app] in E; [exact (Hr _ _ E eq_refl)|]. injection E as E _. apply H. right. left. exact E.
Qed.
Definition extern_c_begin : text := lit "
#ifdef __cplusplus
extern ""C"" {
#endif
".
Definition extern_c_end : text := lit "
#ifdef __cplusplus
}
#endif
".
Lemma only_chars w k : forallb quiet w = true -> last w 0 <> 40 -> ExprSpec.written false SkipNone DSource k w (map inl w).
Proof.
  intros Q L. rewrite <- (app_nil_r w) at 1. rewrite <- (app_nil_r (map inl w)). apply chars_before; [exact Q|intros p E; apply L; rewrite E, last_last; reflexivity|]. intros n. apply wr_end. exact Logic.I.
Qed.
Definition c_parts : contents := map inl (10 :: lit "#ifdef __cplusplus" ++ 10 :: lit "extern ") ++ inr (NStr (raw (34 :: lit "C" ++ [34]))) :: map inl (lit " {" ++ 10 :: lit "#endif" ++ [10]).
Lemma c_doc : document false SkipNone extern_c_begin c_parts.
Proof.
  change extern_c_begin with ((10 :: lit "#ifdef __cplusplus" ++ 10 :: lit "extern ") ++ (34 :: lit "C" ++ 34 :: (lit " {" ++ 10 :: lit "#endif" ++ [10]))). unfold c_parts.
  apply chars_before; [vm_compute; reflexivity|intros p E; apply (f_equal (fun l => last l 0)) in E; rewrite last_last in E; vm_compute in E; discriminate E|]. intros n.
  apply wr_literal; [reflexivity|left; reflexivity|repeat (apply li_char; [discriminate|discriminate|]); apply li_nil|].
  apply only_chars; [vm_compute; reflexivity|vm_compute; discriminate].
Qed.
Lemma e_doc : document false SkipNone extern_c_end (map inl extern_c_end).
Proof. apply only_chars; [vm_compute; reflexivity|vm_compute; discriminate]. Qed.

(** ($h-begin-named) *)
Definition module_call : expr := EApp false true (v "__MODULE_NAME__") [] [].
Definition set_module : construct := CSet (BName (lit "h-name")) module_call.
Definition begin_module : construct := CExpr (EApp false true (v "h-begin") [(false, module_call)] []).
Definition named_parts : contents := [inl 10; inr (tree_construct set_module); inl 10; inr (tree_construct begin_module); inl 10].
Lemma named_doc : document false SkipNone (lit "
($set h-name ($__MODULE_NAME__))
($h-begin ($__MODULE_NAME__))
") named_parts.
Proof.
  assert (Wm : wf false SkipNone module_call).
  { apply wf_app; [apply wf_var; split; [constructor|ident]| |constructor|constructor]. intros _ _. repeat (apply Forall_cons; [intros [x E]; discriminate E|]). apply Forall_nil. }
  assert (W1 : construct_ok false SkipNone set_module) by (apply co_set; [ident|exact Wm]).
  assert (W2 : construct_ok false SkipNone begin_module).
  { apply co_expr; [|exact Logic.I]. apply wf_app; [apply wf_var; split; [constructor|ident]| |constructor; [split; [exact Wm|reflexivity]|constructor]|constructor].
    intros _ _. repeat (apply Forall_cons; [intros [x E]; discriminate E|]). apply Forall_nil. }
  change (document false SkipNone (10 :: show_construct set_module ++ 10 :: show_construct begin_module ++ [10]) named_parts).
  unfold named_parts. revert W1 W2. generalize set_module begin_module. intros c1 c2 W1 W2.
  assert (Ch : forall n r d, ExprSpec.written false SkipNone DSource n r d -> ExprSpec.written false SkipNone DSource n (10 :: r) (inl 10 :: d)).
  { intros n r d H. apply wr_char; [apply ps_ANY_spec; reflexivity|discriminate|discriminate|no_begin|no_begin|intros []|discriminate|intros []|]. destruct n. exact H. }
  apply Ch. apply wr_construct; [exact W1|]. apply Ch. apply wr_construct; [exact W2|]. apply Ch. apply wr_end. exact Logic.I.
Qed.
Definition implement_module : construct := CExpr (EApp false true (v "implement") [(false, module_call)] []).
Lemma impl_doc : document false SkipNone (lit "($implement ($__MODULE_NAME__))") [inr (tree_construct implement_module)].
Proof.
  assert (Wm : wf false SkipNone module_call).
  { apply wf_app; [apply wf_var; split; [constructor|ident]| |constructor|constructor]. intros _ _. repeat (apply Forall_cons; [intros [x E]; discriminate E|]). apply Forall_nil. }
  assert (W2 : construct_ok false SkipNone implement_module).
  { apply co_expr; [|exact Logic.I]. apply wf_app; [apply wf_var; split; [constructor|ident]| |constructor; [split; [exact Wm|reflexivity]|constructor]|constructor].
    intros _ _. repeat (apply Forall_cons; [intros [x E]; discriminate E|]). apply Forall_nil. }
  change (document false SkipNone (show_construct implement_module ++ []) [inr (tree_construct implement_module)]).
  revert W2. generalize implement_module. intros c2 W2. apply wr_construct; [exact W2|]. apply wr_end. exact Logic.I.
Qed.

Section Use.
Variables (ec : ectx) (later before : defs).
Notation g := (later ++ light_defs ++ before).
Lemma use_var_init r a x y val val' u u2 N ind fb rest t fb' : s_txt a = lit "var-init" -> ~ In (lit "var-init") (names later) ->
  c_python (e_parse ec) = false -> c_skip (e_parse ec) = SkipNone -> gives (values_in [] g) (lit "h-name") (NRaw N) -> solid N ->
  value ec (InText g) x val -> FormatSpec.inserts val u -> value ec (InText g) y val' -> FormatSpec.inserts val' u2 ->
  Forall (fun c => declaration_char c /\ c <> 10 /\ c <> 64) u -> Forall (fun c => declaration_char c /\ c <> 10 /\ c <> 64) u2 ->
  page ec g IndFalse fb rest t fb' -> page ec g ind fb (NApply (NVar r a) [x; y] [] None 0 :: rest) (N ++ lit "_VAR_INIT( " ++ u ++ lit ", " ++ u2 ++ lit " );" ++ t) fb'.
Proof.
  intros Ea Nl Py Sk Gv Sn Vx In_ Vy In2 Hu Hu2 Hp.
  assert (H64 : forall k, Forall (fun c => declaration_char c /\ c <> 10 /\ c <> 64) k -> ~ In 64 k) by (intros k Hk H; rewrite Forall_forall in Hk; destruct (Hk _ H) as (_ & _ & H'); apply H'; reflexivity).
  assert (Qk : forall k, Forall (fun c => declaration_char c /\ c <> 10 /\ c <> 64) k -> forallb quiet k = true).
  { intros k Hk. apply forallb_forall. intros c Hc. rewrite Forall_forall in Hk. destruct (Hk _ Hc) as (D & _).
    unfold quiet. apply andb_true_iff. unfold declaration_char in D. cbn [In] in D. split; [lia|]. apply ps_ANY_spec. unfold permitted, line_end. lia. }
  assert (Bk : forall k, Forall (fun c => declaration_char c /\ c <> 10 /\ c <> 64) k -> no_break k).
  { intros k Hk. eapply Forall_impl; [|exact Hk]. intros c (D & D2 & _). unfold declaration_char in D. unfold py_isbreak. cbn [In] in D. lia. }
  set (w := lit "_VAR_INIT( " ++ u ++ lit ", " ++ u2 ++ lit " );").
  assert (W64 : ~ In 64 w) by (unfold w; rewrite !in_app_iff; intros [H|[H|[H|[H|H]]]]; [vm_compute in H; intuition discriminate|exact (H64 u Hu H)|vm_compute in H; intuition discriminate|exact (H64 u2 Hu2 H)|vm_compute in H; intuition discriminate]).
  assert (Q : forallb quiet w = true) by (unfold w; rewrite !forallb_app, (Qk u Hu), (Qk u2 Hu2); reflexivity).
  assert (B : no_break w) by (unfold w, no_break; rewrite !Forall_app; split; [repeat constructor|]; split; [apply Bk, Hu|]; split; [repeat constructor|]; split; [apply Bk, Hu2|repeat constructor]).
  replace (N ++ lit "_VAR_INIT( " ++ u ++ lit ", " ++ u2 ++ lit " );" ++ t) with ((N ++ w) ++ t) by (unfold w; rewrite <- !app_assoc; reflexivity).
  pose proof (name_line ec later before (64 :: w) fb N Gv Sn) as Pg.
  assert (Ew : forall n, filled n (64 :: w) = n ++ w) by (intros n; unfold filled; cbn [flat_map N.eqb Pos.eqb]; fold (filled n w); rewrite (filled_same n w W64); reflexivity).
  rewrite Ew in Pg.
  assert (Er : runs true [] (parts_of (64 :: w)) = [show_h; NPlain (raw w) (fold_left indent_behind w IndNone) false]).
  { change (parts_of (64 :: w)) with (inr show_h :: parts_of w). rewrite (parts_chars w W64). cbn [runs run app]. rewrite GuardUse.runs_chars. cbn [app]. unfold run. reflexivity. }
  eapply PG_called with (u := N ++ w) (fb1 := fb); [| |exact Hp].
  - eapply CA_call with (later := later ++ firstn 1 light_defs) (before := skipn 2 light_defs ++ before) (m := lit "var-init") (vs := [val; val']) (us := [u; u2]) (c := parts_of (64 :: w) ++ []).
    + rewrite <- app_assoc. reflexivity.
    + unfold names. rewrite map_app, in_app_iff. intros [H|H]; [exact (Nl H)|]. cbn [firstn light_defs map fst In] in H. repeat (destruct H as [H|H]; [discriminate H|]). exact H.
    + exact Ea.
    + intros [H|[H|[]]]; discriminate H.
    + apply AV_more; [exact Vx|]. apply AV_more; [exact Vy|apply AV_end].
    + apply Forall2_cons; [exact In_|]. apply Forall2_cons; [exact In2|apply Forall2_nil].
    + reflexivity.
    + cbn [combine]. apply FormatSpec.RT_more with (s1 := (shown_name ++ lit "_VAR_INIT( ") ++ u ++ lit ", ($init) );"); [apply replaced_is; vm_compute; reflexivity|].
      eapply FormatSpec.RT_more with (s1 := shown_name ++ w); [|apply FormatSpec.RT_end]. unfold w. rewrite app_assoc.
      change ((shown_name ++ lit "_VAR_INIT( ") ++ u ++ lit ", ($init) );") with (40 :: 36 :: (lit "h-name)" ++ lit "_VAR_INIT( ") ++ u ++ lit ", ($init) );").
      change ((shown_name ++ lit "_VAR_INIT( ") ++ u ++ lit ", " ++ u2 ++ lit " );") with (40 :: 36 :: (lit "h-name)" ++ lit "_VAR_INIT( ") ++ u ++ lit ", " ++ u2 ++ lit " );").
      apply FormatSpec.RE_kept; [intros z E; discriminate E|]. apply FormatSpec.RE_kept; [intros z E; discriminate E|].
      assert (D36 : ~ In 36 u). { intros H. rewrite Forall_forall in Hu. destruct (Hu _ H) as (D & _). unfold declaration_char in D. cbn [In] in D. lia. }
      apply (loose_kept _ _ (lit "h-name)" ++ lit "_VAR_INIT( ")); [intros H; vm_compute in H; intuition discriminate| |].
      { intros c s E. destruct u as [|c0 u']; [injection E as <- _; discriminate|]. injection E as <- _. intros ->. apply D36. left. reflexivity. }
      apply (loose_kept _ _ u); [exact D36|intros c s E; injection E as <- _; discriminate|]. apply replaced_is. vm_compute. reflexivity.
    + rewrite Py, Sk. rewrite <- (Ew shown_name), <- (app_nil_r (filled shown_name (64 :: w))). apply template_written; [cbn [forallb]; rewrite Q; reflexivity| |discriminate]. intros n0. apply wr_end. exact Logic.I.
    + rewrite Py. discriminate.
    + rewrite app_nil_r, Er in *. apply RP_many; [repeat constructor; intros []|exact Pg].
  - cbn [an_application]. apply placed_solid, solid_more; assumption.
Qed.
Lemma use_c_begin r a ind fb rest t fb' : s_txt a = lit "extern-c-begin" -> ~ In (lit "extern-c-begin") (names later) ->
  c_python (e_parse ec) = false -> c_skip (e_parse ec) = SkipNone -> ind_text ind = [] ->
  page ec g IndFalse fb rest t fb' -> page ec g ind fb (NApply (NVar r a) [] [] None 0 :: rest) (extern_c_begin ++ t) fb'.
Proof.
  intros Ea Nl Py Sk Ei Hp. eapply PG_called with (u := extern_c_begin) (fb1 := fb); [| |exact Hp].
  - eapply CA_call with (later := later ++ firstn 4 light_defs) (before := skipn 5 light_defs ++ before) (m := lit "extern-c-begin") (vs := []) (us := []) (c := c_parts).
    + rewrite <- app_assoc. reflexivity.
    + unfold names. rewrite map_app, in_app_iff. intros [H|H]; [exact (Nl H)|]. cbn [firstn light_defs map fst In] in H. repeat (destruct H as [H|H]; [discriminate H|]). exact H.
    + exact Ea.
    + intros [].
    + apply AV_end.
    + apply Forall2_nil.
    + reflexivity.
    + apply FormatSpec.RT_end.
    + rewrite Py, Sk. exact c_doc.
    + rewrite Py. discriminate.
    + assert (Er : runs true [] c_parts = [NPlain (raw (10 :: lit "#ifdef __cplusplus" ++ 10 :: lit "extern ")) IndFalse false; NStr (raw (34 :: lit "C" ++ [34])); NPlain (raw (lit " {" ++ 10 :: lit "#endif" ++ [10])) (IndStr []) false]) by (vm_compute; reflexivity).
      rewrite Er. apply RP_many; [repeat constructor; intros []|].
      change extern_c_begin with ((10 :: lit "#ifdef __cplusplus" ++ 10 :: lit "extern ") ++ (34 :: lit "C" ++ [34]) ++ (lit " {" ++ 10 :: lit "#endif" ++ [10]) ++ []).
      apply PG_run; [unfold front_cut; rewrite andb_false_r; reflexivity|]. apply PG_string. apply PG_run; [unfold front_cut; rewrite andb_false_r; reflexivity|apply PG_end].
  - cbn [an_application]. rewrite Ei. destruct (e_trim ec) eqn:T; [|unfold placed; rewrite T; reflexivity].
    apply (placed_lines' ec [] [[]; lit "#ifdef __cplusplus"; lit "extern ""C"" {"; lit "#endif"; []] extern_c_begin T); [discriminate|vm_compute; reflexivity|vm_compute; reflexivity].
Qed.
Lemma use_c_end r a ind fb rest t fb' : s_txt a = lit "extern-c-end" -> ~ In (lit "extern-c-end") (names later) ->
  c_python (e_parse ec) = false -> c_skip (e_parse ec) = SkipNone -> ind_text ind = [] ->
  page ec g IndFalse fb rest t fb' -> page ec g ind fb (NApply (NVar r a) [] [] None 0 :: rest) (extern_c_end ++ t) fb'.
Proof.
  intros Ea Nl Py Sk Ei Hp. eapply PG_called with (u := extern_c_end) (fb1 := fb); [| |exact Hp].
  - eapply CA_call with (later := later ++ firstn 3 light_defs) (before := skipn 4 light_defs ++ before) (m := lit "extern-c-end") (vs := []) (us := []) (c := map inl extern_c_end).
    + rewrite <- app_assoc. reflexivity.
    + unfold names. rewrite map_app, in_app_iff. intros [H|H]; [exact (Nl H)|]. cbn [firstn light_defs map fst In] in H. repeat (destruct H as [H|H]; [discriminate H|]). exact H.
    + exact Ea.
    + intros [].
    + apply AV_end.
    + apply Forall2_nil.
    + reflexivity.
    + apply FormatSpec.RT_end.
    + rewrite Py, Sk. exact e_doc.
    + rewrite Py. discriminate.
    + rewrite GuardUse.runs_chars. apply RP_run. unfold front_cut. rewrite andb_false_r. reflexivity.
  - cbn [an_application]. rewrite Ei. destruct (e_trim ec) eqn:T; [|unfold placed; rewrite T; reflexivity].
    apply (placed_lines' ec [] [[]; lit "#ifdef __cplusplus"; lit "}"; lit "#endif"; []] extern_c_end T); [discriminate|vm_compute; reflexivity|vm_compute; reflexivity].
Qed.
Lemma use_named r a n N fb rest t fb' : s_txt a = lit "h-begin-named" -> ~ In (lit "h-begin-named") (names later) -> ~ In (lit "h-begin") (names later) ->
  c_python (e_parse ec) = false -> c_skip (e_parse ec) = SkipNone -> TextSpec.offers ec (lit "upper") -> ~ In (lit "upper") (names g) ->
  builtin_gives ec (lit "__MODULE_NAME__") [] (NRaw n) -> ~ In (lit "__MODULE_NAME__") (names g) ->
  identifier n -> ~ In 45 n -> ~ In n (names g) -> ~ In n special_forms -> (forall imported, e_builtin ec imported n = None) ->
  Forall2 TextSpec.to_capital n N ->
  page ec ((lit "h-name", EValue (NRaw N)) :: (lit "h-name", EValue (NRaw n)) :: g) (IndStr []) fb rest t fb' ->
  page ec g (IndStr []) fb (NApply (NVar r a) [] [] None 0 :: rest)
    ([10] ++ (if e_trim ec then [] else [10]) ++ [10] ++ (if e_trim ec then [] else [10]) ++ filled N header_begin ++ 10 :: t) fb'.
Proof.
  intros Ea Nl Nb0 Py Sk Ou Nu Mg Nm Hn Hd Nn Ns Nb HN Hp.
  assert (Nh : n <> lit "h-name") by (intros ->; apply Hd; right; left; reflexivity).
  assert (Vm : forall l, ~ In (lit "__MODULE_NAME__") (names l) -> value ec (InText (l ++ g)) (ExprSpec.tree module_call) (NRaw n)).
  { intros l Hl. cbn [module_call ExprSpec.tree v tree_region tree_name map]. eapply VA_builtin; [apply AV_end| |exact Mg]. unfold free_at. cbn [known_at s_txt raw]. unfold names in *. rewrite map_app, in_app_iff. tauto. }
  eapply PG_pieces with (fb1 := fb).
  - eapply CA_call with (later := later ++ firstn 7 light_defs) (before := skipn 8 light_defs ++ before) (m := lit "h-begin-named") (vs := []) (us := []) (c := named_parts).
    + rewrite <- app_assoc. reflexivity.
    + unfold names. rewrite map_app, in_app_iff. intros [H|H]; [exact (Nl H)|]. cbn [firstn light_defs map fst In] in H. repeat (destruct H as [H|H]; [discriminate H|]). exact H.
    + exact Ea.
    + intros [].
    + apply AV_end.
    + apply Forall2_nil.
    + reflexivity.
    + apply FormatSpec.RT_end.
    + rewrite Py, Sk. exact named_doc.
    + rewrite Py. discriminate.
    + apply RP_definition. apply Exists_cons_tl. apply Exists_cons_hd. exact Logic.I.
  - cbn [indented].
    change (runs true [] named_parts ++ rest) with (NPlain (raw [10]) (IndStr []) false :: NSet (LAtom (raw (lit "h-name"))) (ExprSpec.tree module_call) :: NPlain (raw [10]) (IndStr []) false ::
      NApply (NVar (RList []) (raw (lit "h-begin"))) [ExprSpec.tree module_call] [] None 0 :: NPlain (raw [10]) (IndStr []) false :: rest).
    apply PG_run; [unfold front_cut; rewrite andb_false_r; reflexivity|]. cbn [indent_then].
    eapply PG_set with (es := [(lit "h-name", EValue (NRaw n))]).
    + intros [H|[]]; discriminate H.
    + apply (DF_value ec g (raw (lit "h-name"))). apply (Vm [(lit "h-name", EOpen)]). intros [H|[]]; discriminate H.
    + cbn [trimmed_next app]. apply PG_run.
      * unfold front_cut. cbn [s_txt raw]. destruct (e_trim ec); cbn [andb]; [|reflexivity]. exists [10]. split; [reflexivity|]. split; [constructor; [reflexivity|constructor]|]. exact Logic.I.
      * cbn [indent_then].
        pose proof (use_begin ec ((lit "h-name", EValue (NRaw n)) :: later) before (RList []) (raw (lit "h-begin")) (ExprSpec.tree module_call) (NRaw n) n N fb (NPlain (raw [10]) (IndStr []) false :: rest) (10 :: t) fb') as K.
        rewrite <- app_comm_cons in K. cbn [app] in K |- *. apply K; clear K; try assumption.
        -- reflexivity.
        -- intros [H|H]; [discriminate H|exact (Nb0 H)].
        -- intros [H|H]; [discriminate H|exact (Nu H)].
        -- intros [H|H]; [exact (Nh (eq_sym H))|exact (Nn H)].
        -- apply (Vm [(lit "h-name", EValue (NRaw n))]). intros [H|[]]; discriminate H.
        -- apply FormatSpec.IN_raw.
        -- apply (PG_run ec _ (IndStr []) fb (raw [10]) (IndStr []) false rest [10] t fb'); [unfold front_cut; rewrite andb_false_r; reflexivity|exact Hp].
Qed.
Lemma use_implement_named r a n N ind fb rest t fb' : s_txt a = lit "implement-named" -> ~ In (lit "implement-named") (names later) -> ~ In (lit "implement") (names later) ->
  c_python (e_parse ec) = false -> c_skip (e_parse ec) = SkipNone -> TextSpec.offers ec (lit "upper") -> ~ In (lit "upper") (names g) ->
  builtin_gives ec (lit "__MODULE_NAME__") [] (NRaw n) -> ~ In (lit "__MODULE_NAME__") (names g) ->
  identifier n -> ~ In 45 n -> ~ In n (names g) -> ~ In n special_forms -> (forall imported, e_builtin ec imported n = None) ->
  Forall2 TextSpec.to_capital n N -> ind_text ind = [] ->
  page ec g IndFalse fb rest t fb' ->
  page ec g ind fb (NApply (NVar r a) [] [] None 0 :: rest) (10 :: lit "#define " ++ N ++ lit "_IMPLEMENT" ++ 10 :: t) fb'.
Proof.
  intros Ea Nl Ni Py Sk Ou Nu Mg Nm Hn Hd Nn Ns Nb HN Ei Hp.
  assert (Vm : value ec (InText g) (ExprSpec.tree module_call) (NRaw n)).
  { cbn [module_call ExprSpec.tree v tree_region tree_name map]. eapply VA_builtin; [apply AV_end|exact Nm|exact Mg]. }
  destruct (implement_works ec later before (RList []) (raw (lit "implement")) (ExprSpec.tree module_call) (NRaw n) n N fb) as (C & P); try assumption; [reflexivity|apply FormatSpec.IN_raw|].
  replace (10 :: lit "#define " ++ N ++ lit "_IMPLEMENT" ++ 10 :: t) with ((10 :: lit "#define " ++ N ++ lit "_IMPLEMENT" ++ [10]) ++ t) by (cbn [app]; f_equal; rewrite <- !app_assoc; cbn [app]; rewrite <- ?app_assoc; reflexivity).
  eapply PG_called; [| |exact Hp].
  - eapply CA_call with (later := later ++ firstn 5 light_defs) (before := skipn 6 light_defs ++ before) (m := lit "implement-named") (vs := []) (us := []) (c := [inr (tree_construct implement_module)]).
    + rewrite <- app_assoc. reflexivity.
    + unfold names. rewrite map_app, in_app_iff. intros [H|H]; [exact (Nl H)|]. cbn [firstn light_defs map fst In] in H. repeat (destruct H as [H|H]; [discriminate H|]). exact H.
    + exact Ea.
    + intros [].
    + apply AV_end.
    + apply Forall2_nil.
    + reflexivity.
    + apply FormatSpec.RT_end.
    + rewrite Py, Sk. exact impl_doc.
    + rewrite Py. discriminate.
    + apply RP_called. exact C.
  - cbn [an_application]. rewrite Ei. exact P.
Qed.
End Use.
Lemma init_case :
  (solid (lit "FOO") /\ Forall (fun c => declaration_char c /\ c <> 10 /\ c <> 64) (lit "short fred[ 3 ]") /\ Forall (fun c => declaration_char c /\ c <> 10 /\ c <> 64) (lit "{ 7, 11, 13 }")) /\
  pp (with_library lib_top lib_input light_world) lib_config 3 80
     (lit "($import h-light)($h-begin foo)
($var-init,,short fred[ 3 ],,{ 7, 11, 13 })
($extern-c-begin)extern bool waldo( void );($extern-c-end)
($h-end)") lib_input lib_output (Proc [] []) =
    Ok (PP true (header (lit "FOO") (lit "FOO_VAR_INIT( short fred[ 3 ], { 7, 11, 13 } );
" ++ extern_c_begin ++ lit "extern bool waldo( void );" ++ extern_c_end)) None None false 0).
Proof.
  split; [|vm_compute; reflexivity]. split; [split; [repeat constructor|exists 70, (lit "OO"); split; [reflexivity|split; discriminate]]|].
  split; (apply Forall_forall; intros c Hc; vm_compute in Hc; unfold declaration_char; cbn [In]; repeat (destruct Hc as [<-|Hc]; [lia|]); destruct Hc).
Qed.
Lemma named_case :
  (forall w top trim reduce dirs passage input output uniq, builtin_gives (run_ectx (with_library top input w) (library_config trim reduce dirs passage) input output (Proc [] uniq)) (lit "__MODULE_NAME__") [] (NRaw (Builtin2.module_name input))) /\
  Builtin2.module_name lib_input = lit "A" /\
  pp (with_library lib_top lib_input light_world) lib_config 3 80
     (lit "($import h-light)($h-begin-named)int x;
($h-end)") lib_input lib_output (Proc [] []) =
    Ok (PP true (10 :: 10 :: filled (lit "A") header_begin ++ 10 :: lit "int x;" ++ 10 :: filled (lit "A") header_end) None None false 0).
Proof.
  split; [|split; vm_compute; reflexivity]. intros w top trim reduce dirs passage input output uniq vs' E. apply map_eq_nil in E as ->.
  exists (NRaw (Builtin2.module_name input)). split; [|split; [constructor|reflexivity]].
  exists (Builtin2.b_module input), (NRaw (Builtin2.module_name input)). split; [|split; reflexivity]. intros imported. reflexivity.
Qed.
Lemma implement_named_case :
  pp (with_library lib_top lib_input light_world) lib_config 3 80
     (lit "($import h-light)($implement-named)
int x;") lib_input lib_output (Proc [] []) =
    Ok (PP true (lit "
#define A_IMPLEMENT

int x;") None None false 0).
Proof. vm_compute; reflexivity. Qed.
