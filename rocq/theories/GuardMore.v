(** * Where a header is implemented (proofs only) *)
From Coq Require Import List NArith ZArith Bool String Lia ZifyBool ZifyNat ZifyN.
From Verif Require FormatSpec FormatFacts FormatCases TextSpec.
From Verif Require Import PyStr PyStrFacts Ast Lex LexSpec ProtectSpec LexFacts LexFacts2 LexCases Parse ParseSpec Final FinalSpec Shell ShellSpec Eval Builtin EnvSpec EvalSpec TrimSpec Pp PpSpec ExprSpec ExprShow DocSpec ExprCases CoreSpec CoreFacts RunSpec RunCases SheetSpec SheetFacts SheetCases StdSpec StdCases StdCases2 GuardSpec GuardCases GuardUse.
Import ListNotations.
Open Scope list_scope.
Open Scope N_scope.

Section Use.
Variables (ec : ectx) (later before : defs).
Notation g := (later ++ light_defs ++ before).
Definition upper_call (n : text) : construct := CExpr (EApp false true (v "upper") [(false, EVar (VName [] n))] []).
Lemma upper_call_ok n : identifier n -> construct_ok false SkipNone (upper_call n).
Proof.
  intros Hn. apply co_expr; [|exact Logic.I]. apply wf_app; [apply wf_var; split; [constructor|ident]| |constructor; [|constructor]|constructor].
  - intros _ _. repeat (apply Forall_cons; [intros [x E]; discriminate E|]). apply Forall_nil.
  - split; [apply wf_var; split; [constructor|exact Hn]|reflexivity].
Qed.
Definition implement_parts (n : text) : contents := map inl (10 :: lit "#define ") ++ inr (tree_construct (upper_call n)) :: map inl (lit "_IMPLEMENT" ++ [10]).
Lemma implement_doc n : identifier n -> document false SkipNone (10 :: lit "#define ($upper " ++ n ++ lit ")_IMPLEMENT" ++ [10]) (implement_parts n).
Proof.
  intros Hn. pose proof (upper_call_ok n Hn) as W.
  assert (Es : show_construct (upper_call n) = lit "($upper " ++ n ++ lit ")") by (cbn [show_construct upper_call show v show_var flat_map fst snd star app]; rewrite app_nil_r; cbn [app]; rewrite ?app_nil_r, <- ?app_assoc; reflexivity).
  replace (10 :: lit "#define ($upper " ++ n ++ lit ")_IMPLEMENT" ++ [10]) with ((10 :: lit "#define ") ++ show_construct (upper_call n) ++ (lit "_IMPLEMENT" ++ [10]) ++ []) by (rewrite Es, app_nil_r, <- !app_assoc; reflexivity).
  unfold implement_parts. revert W. generalize (upper_call n). intros c W. rewrite <- (app_nil_r (map inl (lit "_IMPLEMENT" ++ [10]))).
  apply chars_before; [reflexivity|intros p E; apply (f_equal (fun l => last l 0)) in E; rewrite !last_last in E; vm_compute in E; discriminate E|]. intros k.
  apply wr_construct; [exact W|].
  apply chars_before; [reflexivity|intros p E; apply (f_equal (fun l => last l 0)) in E; rewrite !last_last in E; vm_compute in E; discriminate E|]. intros k'. apply wr_end. exact Logic.I.
Qed.
Lemma implement_runs x : runs true [] (map inl (10 :: lit "#define ") ++ inr x :: map inl (lit "_IMPLEMENT" ++ [10])) = [NPlain (raw (10 :: lit "#define ")) IndFalse false; x; NPlain (raw (lit "_IMPLEMENT" ++ [10])) (IndStr []) false].
Proof. reflexivity. Qed.
Lemma implement_works r a x val n N fb : s_txt a = lit "implement" -> ~ In (lit "implement") (names later) ->
  c_python (e_parse ec) = false -> c_skip (e_parse ec) = SkipNone -> TextSpec.offers ec (lit "upper") -> ~ In (lit "upper") (names g) ->
  identifier n -> ~ In 45 n -> ~ In n (names g) -> ~ In n special_forms -> (forall imported, e_builtin ec imported n = None) ->
  value ec (InText g) x val -> FormatSpec.inserts val n -> Forall2 TextSpec.to_capital n N ->
  called ec g fb (NApply (NVar r a) [x] [] None 0) (OText (10 :: lit "#define " ++ N ++ lit "_IMPLEMENT" ++ [10])) fb /\ placed ec [] (10 :: lit "#define " ++ N ++ lit "_IMPLEMENT" ++ [10]) (10 :: lit "#define " ++ N ++ lit "_IMPLEMENT" ++ [10]).
Proof.
  intros Ea Nl Py Sk Ou Nu Hn Hd Nn Ns Nb Vx In_ HN.
  assert (EN : N = upper n).
  { clear -HN. induction HN as [|c d n N H _ IH]; [reflexivity|]. cbn [upper map]. f_equal; [|exact IH]. unfold TextSpec.to_capital, TextSpec.small in H. unfold upper_char. destruct (_ && _) eqn:E; lia. }
  pose proof (upper_solid n Hn) as Sn. rewrite <- EN in Sn.
  assert (Pg : page ec g (IndStr []) fb [NPlain (raw (10 :: lit "#define ")) IndFalse false; tree_construct (upper_call n); NPlain (raw (lit "_IMPLEMENT" ++ [10])) (IndStr []) false] (10 :: lit "#define " ++ N ++ lit "_IMPLEMENT" ++ [10]) fb).
  { change (10 :: lit "#define " ++ N ++ lit "_IMPLEMENT" ++ [10]) with ((10 :: lit "#define ") ++ N ++ (lit "_IMPLEMENT" ++ [10]) ++ []).
    apply PG_run; [unfold front_cut; rewrite andb_false_r; reflexivity|]. cbn [indent_then].
    cbn [tree_construct upper_call ExprSpec.tree v tree_region tree_name map fst snd spliced].
    apply PG_applied with (v := NRaw N) (u := N); [|apply SH_value, VT_raw|apply placed_solid, Sn|].
    - rewrite EN. eapply VA_builtin with (vs := [NAtom (raw n)]); [|exact Nu|apply upper_gives, Ou].
      apply AV_more; [|apply AV_end]. apply VA_atom; [exact Nn|exact Nb|exact Ns|exact Hd].
    - apply PG_run; [unfold front_cut; rewrite andb_false_r; reflexivity|]. apply PG_end. }
  split.
  - eapply CA_call with (later := later ++ firstn 6 light_defs) (before := skipn 7 light_defs ++ before) (m := lit "implement") (vs := [val]) (us := [n]) (c := implement_parts n).
    + rewrite <- app_assoc. reflexivity.
    + unfold names. rewrite map_app, in_app_iff. intros [H|H]; [exact (Nl H)|]. cbn [firstn light_defs map fst In] in H. repeat (destruct H as [H|H]; [discriminate H|]). exact H.
    + exact Ea.
    + intros [H|[]]; discriminate H.
    + apply AV_more; [exact Vx|apply AV_end].
    + apply Forall2_cons; [exact In_|apply Forall2_nil].
    + reflexivity.
    + apply FormatCases.turn_of with (u := 10 :: lit "#define ($upper " ++ n ++ lit ")_IMPLEMENT" ++ [10]). reflexivity.
    + rewrite Py, Sk. apply implement_doc, Hn.
    + rewrite Py. discriminate.
    + unfold implement_parts. rewrite implement_runs. apply RP_many; [repeat constructor; intros []|exact Pg].
  - unfold placed. destruct (e_trim ec); [|reflexivity].
    exists [[]; lit "#define " ++ N ++ lit "_IMPLEMENT"; []], [], [[]; lit "#define " ++ N ++ lit "_IMPLEMENT"; []].
    assert (El : 10 :: lit "#define " ++ N ++ lit "_IMPLEMENT" ++ [10] = join [10] [[]; lit "#define " ++ N ++ lit "_IMPLEMENT"; []]) by (cbn [join app]; f_equal; rewrite <- !app_assoc; reflexivity).
    split; [discriminate|]. split; [exact El|]. split.
    + apply Forall_cons; [constructor|]. apply Forall_cons; [|repeat constructor]. unfold no_break. rewrite !Forall_app. split; [repeat constructor|]. split; [exact (proj1 Sn)|repeat constructor].
    + split; [apply margin_none; exists 35, (lit "define " ++ N ++ lit "_IMPLEMENT"); split; [right; left; reflexivity|split; discriminate]|]. split; [|rewrite El; apply laid_none; discriminate].
      assert (Cl : forall l, l = [] \/ (exists r, l = 35 :: r) -> cut [] l l) by (intros l [-> |[r0 ->]]; [apply cut_blank; constructor|apply (cut_line [] (35 :: r0)); intros H; inversion H; subst; lia]).
      repeat (apply Forall2_cons; [apply Cl; first [left; reflexivity|right; eexists; reflexivity]|]). apply Forall2_nil.
Qed.
Lemma use_implement r a x val n N ind fb rest t fb' : s_txt a = lit "implement" -> ~ In (lit "implement") (names later) ->
  c_python (e_parse ec) = false -> c_skip (e_parse ec) = SkipNone -> TextSpec.offers ec (lit "upper") -> ~ In (lit "upper") (names g) ->
  identifier n -> ~ In 45 n -> ~ In n (names g) -> ~ In n special_forms -> (forall imported, e_builtin ec imported n = None) ->
  value ec (InText g) x val -> FormatSpec.inserts val n -> Forall2 TextSpec.to_capital n N -> ind_text ind = [] ->
  page ec g IndFalse fb rest t fb' -> page ec g ind fb (NApply (NVar r a) [x] [] None 0 :: rest) (10 :: lit "#define " ++ N ++ lit "_IMPLEMENT" ++ 10 :: t) fb'.
Proof.
  intros Ea Nl Py Sk Ou Nu Hn Hd Nn Ns Nb Vx In_ HN Ei Hp. destruct (implement_works r a x val n N fb) as (C & P); try assumption.
  replace (10 :: lit "#define " ++ N ++ lit "_IMPLEMENT" ++ 10 :: t) with ((10 :: lit "#define " ++ N ++ lit "_IMPLEMENT" ++ [10]) ++ t) by (cbn [app]; f_equal; rewrite <- !app_assoc; cbn [app]; rewrite <- ?app_assoc; reflexivity).
  eapply PG_called; [exact C| |exact Hp]. cbn [an_application]. rewrite Ei. exact P.
Qed.
End Use.
