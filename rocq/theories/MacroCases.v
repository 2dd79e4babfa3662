(** * Whole runs over sources with macros *)
From Coq Require Import List NArith ZArith Bool String Lia ZifyBool ZifyNat ZifyN.
From Verif Require FormatSpec FormatFacts FormatCases.
From Verif Require Import PyStr PyStrFacts Ast Lex LexSpec ProtectSpec QuoteSpec LexFacts LexFacts2 LexCases Parse Final Shell ShellSpec Eval Builtin EnvSpec EvalSpec EvalFacts TrimSpec TrimCases CodecFacts Pp PpSpec PpCases ProtectCases ExprSpec ExprShow DocSpec ExprCases CoreSpec CoreFacts CoreCases RunSpec RunFacts RunFacts2 RunCases.
Import ListNotations.
Open Scope list_scope.
Open Scope N_scope.

(* ($macro var (n v )($set ($n) ($v))int ($n) = ($ ($n));)($macro sq (x )($ mul ($x) ($x)))begin
     ($ var k 5)
   ($ sq k)end *)
Definition var_body : text := lit "($set ($n) ($v))int ($n) = ($ ($n));".
Definition sq_body : text := lit "($ mul ($x) ($x))".
Definition mac_var : construct := CMacro (lit "var") [lit "n"; lit "v"] var_body.
Definition mac_sq : construct := CMacro (lit "sq") [lit "x"] sq_body.
Definition use_var : construct := CExpr (app1 "var" [v "k"; ENum 5]).
Definition use_sq : construct := CExpr (app1 "sq" [v "k"]).
Definition macro_source : text := show_construct mac_var ++ show_construct mac_sq ++ lit "begin" ++ 10 :: lit "  " ++ show_construct use_var ++ 10 :: show_construct use_sq ++ lit "end".
Definition macro_contents : contents :=
  inr (tree_construct mac_var) :: inr (tree_construct mac_sq) :: chars_of (lit "begin" ++ 10 :: lit "  ") ++ inr (tree_construct use_var) :: inl 10 :: inr (tree_construct use_sq) :: chars_of (lit "end").
Definition macro_output : text := lit "begin" ++ 10 :: lit "  int k = 5;" ++ 10 :: lit "25end".
Lemma macro_computed : pp world0 run_config 1 60 macro_source (Some (lit "a.yu-c")) (Some (lit "a.c")) process0 = Ok (PP true macro_output None None false 0).
Proof. vm_compute. reflexivity. Qed.
Lemma k_wf : wf false SkipNone (v "k").
Proof. unfold v. well. Qed.
Lemma macro_document : document false SkipNone macro_source macro_contents.
Proof.
  assert (W1 : construct_ok false SkipNone mac_var).
  { apply co_macro; [ident|apply Forall_cons; [ident|apply Forall_cons; [ident|apply Forall_nil]]|apply permitted_dec; reflexivity|apply balanced_dec; reflexivity]. }
  assert (W2 : construct_ok false SkipNone mac_sq).
  { apply co_macro; [ident|apply Forall_cons; [ident|apply Forall_nil]|apply permitted_dec; reflexivity|apply balanced_dec; reflexivity]. }
  assert (W3 : construct_ok false SkipNone use_var).
  { apply co_expr; [|exact Logic.I]. apply app1_wf; [ident|]. apply Forall_cons; [split; [exact k_wf|reflexivity]|]. apply Forall_cons; [split; [apply wf_num|reflexivity]|constructor]. }
  assert (W4 : construct_ok false SkipNone use_sq).
  { apply co_expr; [|exact Logic.I]. apply app1_wf; [ident|]. apply Forall_cons; [split; [exact k_wf|reflexivity]|constructor]. }
  unfold macro_source, macro_contents. revert W1 W2 W3 W4. generalize mac_var mac_sq use_var use_sq. intros c1 c2 c3 c4 W1 W2 W3 W4.
  change (lit "begin") with [98; 101; 103; 105; 110]. change (lit "  ") with [32; 32]. change (lit "end") with [101; 110; 100]. cbn [chars_of map app].
  apply wr_construct; [exact W1|]. apply wr_construct; [exact W2|]. do 8 dchar. apply wr_construct; [exact W3|]. dchar. apply wr_construct; [exact W4|]. do 3 dchar. apply wr_end. exact Logic.I.
Qed.
(** what the calls expand to *)
Definition set_k : construct := CSet (BName (lit "k")) (ENum 5).
Definition show_k : construct := CExpr (app1 "k" []).
Definition var_text : text := show_construct set_k ++ lit "int k = " ++ show_construct show_k ++ lit ";".
Definition var_contents : contents := inr (tree_construct set_k) :: chars_of (lit "int k = ") ++ inr (tree_construct show_k) :: chars_of (lit ";").
Lemma var_document : document false SkipNone var_text var_contents.
Proof.
  assert (W1 : construct_ok false SkipNone set_k) by (apply co_set; [cbn [binder_ok]; ident|apply wf_num]).
  assert (W2 : construct_ok false SkipNone show_k) by (apply co_expr; [apply app1_wf; [ident|constructor]|exact Logic.I]).
  unfold var_text, var_contents. revert W1 W2. generalize set_k show_k. intros c1 c2 W1 W2.
  change (lit "int k = ") with [105; 110; 116; 32; 107; 32; 61; 32]. change (lit ";") with [59]. cbn [chars_of map app].
  apply wr_construct; [exact W1|]. do 8 dchar. apply wr_construct; [exact W2|]. dchar. apply wr_end. exact Logic.I.
Qed.
Definition five_squared : construct := CExpr (app1 "mul" [ENum 5; ENum 5]).
Lemma square_document : document false SkipNone (show_construct five_squared) [inr (tree_construct five_squared)].
Proof.
  rewrite <- (app_nil_r (show_construct five_squared)). apply wr_construct; [|apply wr_end; exact Logic.I].
  apply co_expr; [|exact Logic.I]. apply app1_wf; [ident|]. apply Forall_cons; [split; [apply wf_num|reflexivity]|]. apply Forall_cons; [split; [apply wf_num|reflexivity]|constructor].
Qed.
Definition with_macros : defs := [(lit "sq", EMacro [lit "x"] sq_body); (lit "var", EMacro [lit "n"; lit "v"] var_body)].
Lemma placed_line i t w : forallb (fun c => negb (py_isbreak c)) t = true -> trim true i t = w -> placed run_ec i t w.
Proof. intros H1 H2. apply (placed_lines i [t] w); [discriminate|cbn [forallb]; rewrite H1; reflexivity|exact H2]. Qed.
Lemma macro_page : page run_ec [] (IndStr []) untold (runs true [] macro_contents) macro_output untold.
Proof.
  set (q1 := NPlain (raw (lit "begin" ++ 10 :: lit "  ")) (IndStr (lit "  ")) false). set (q2 := NPlain (raw [10]) (IndStr []) false). set (q3 := NPlain (raw (lit "end")) IndFalse false).
  assert (E : runs true [] macro_contents = [tree_construct mac_var; tree_construct mac_sq; q1; tree_construct use_var; q2; tree_construct use_sq; q3]) by (vm_compute; reflexivity). rewrite E. clear E.
  apply PG_macro; [constructor; [intros [H|[]]; discriminate H|constructor; [intros []|constructor]]|]. cbn [trimmed_next tree_construct mac_sq].
  apply PG_macro; [constructor; [intros []|constructor]|]. cbn [trimmed_next q1 map s_txt raw]. fold with_macros.
  change macro_output with ((lit "begin" ++ 10 :: lit "  ") ++ (lit "int k = " ++ (lit "5" ++ (lit ";" ++ ([10] ++ (lit "25" ++ (lit "end" ++ []))))))).
  apply PG_run; [exists []; split; [reflexivity|]; split; [constructor|intros H; discriminate H]|]. cbn [indent_then].
  eapply PG_pieces with (l := runs true [] var_contents) (fb1 := untold).
  { eapply CA_call with (later := [(lit "sq", EMacro [lit "x"] sq_body)]) (before := []) (m := lit "var") (vs := [NAtom (raw (lit "k")); NInt 5]) (us := [lit "k"; lit "5"]) (u := var_text).
    - reflexivity.
    - intros [H|[]]; discriminate H.
    - reflexivity.
    - intros [H|[H|[]]]; discriminate H.
    - apply AV_more; [|apply AV_more; [apply VA_constant, int_constant|apply AV_end]].
      apply VA_atom; [intros [H|[H|[]]]; discriminate H|intros imported; reflexivity|cbn; intros H; repeat destruct H as [H|H]; discriminate H || exact H|intros [H|[]]; discriminate H].
    - apply Forall2_cons; [apply (FormatSpec.IN_atom (raw (lit "k")))|apply Forall2_cons; [apply (FormatSpec.IN_int 5)|apply Forall2_nil]].
    - reflexivity.
    - apply FormatCases.turn_of. vm_compute. reflexivity.
    - exact var_document.
    - discriminate.
    - apply RP_definition. apply Exists_cons_hd. exact Logic.I. }
  set (p1 := NPlain (raw (lit "int k = ")) IndFalse false). set (p2 := NPlain (raw (lit ";")) IndFalse false).
  assert (E : indented (IndStr (lit "  ")) (runs true [] var_contents) = [tree_construct set_k; p1; tree_construct show_k; p2]) by (vm_compute; reflexivity). rewrite E. clear E. cbn [app].
  eapply PG_set; [|apply DF_value, VA_constant, int_constant|].
  { intros [H|[]]; discriminate H. }
  cbn [app trimmed_next p1 s_txt raw].
  apply PG_run; [exists []; split; [reflexivity|]; split; [constructor|intros H; discriminate H]|]. cbn [indent_then].
  apply PG_applied with (v := NInt 5) (u := lit "5").
  { eapply VA_show; [apply VA_name; apply at_front|apply VT_int]. }
  { apply SH_value, VT_int. }
  { apply placed_line; reflexivity. }
  apply PG_run; [reflexivity|]. cbn [indent_then]. apply (PG_run _ _ _ _ (raw [10]) (IndStr []) false _ [10] (lit "25" ++ (lit "end" ++ []))); [reflexivity|]. cbn [indent_then].
  apply PG_called with (u := lit "25") (fb1 := untold).
  { eapply CA_call with (later := [(lit "k", EValue (NInt 5))]) (before := [(lit "var", EMacro [lit "n"; lit "v"] var_body)]) (m := lit "sq") (vs := [NInt 5]) (us := [lit "5"]) (u := show_construct five_squared).
    - reflexivity.
    - intros [H|[]]; discriminate H.
    - reflexivity.
    - intros [H|[]]; discriminate H.
    - apply AV_more; [apply VA_name; apply at_front|apply AV_end].
    - apply Forall2_cons; [apply (FormatSpec.IN_int 5)|apply Forall2_nil].
    - reflexivity.
    - apply FormatCases.turn_of. vm_compute. reflexivity.
    - exact square_document.
    - discriminate.
    - apply RP_value with (v := NInt 25); [exact Logic.I| |apply SH_value, (VT_int 25)].
      apply VA_builtin with (vs := [NInt 5; NInt 5]).
      + apply AV_more; [apply VA_constant, int_constant|]. apply AV_more; [apply VA_constant, int_constant|apply AV_end].
      + intros [H|[H|[H|[]]]]; discriminate H.
      + apply two_ints with (f := b_mul); [intros imported; reflexivity|intros st; reflexivity]. }
  { apply placed_line; reflexivity. }
  apply PG_run; [reflexivity|]. apply PG_end.
Qed.
Lemma macro_run_case : document (is_python (Some (lit "a.c"))) (skip_of run_config (is_python (Some (lit "a.c")))) macro_source macro_contents /\
  page run_ec [] (IndStr []) untold (runs true [] macro_contents) macro_output untold.
Proof. split; [exact macro_document|exact macro_page]. Qed.

(* ($set op "add 2 3")r = ($$op ); *)
Definition set_op : construct := CSet (BName (lit "op")) (EStr 34 (lit "add 2 3")).
Definition run_op : construct := CExpr (EApp true true (v "op") [] []).
Definition eval_source : text := show_construct set_op ++ lit "r = " ++ show_construct run_op ++ lit ";".
Definition eval_contents : contents := inr (tree_construct set_op) :: chars_of (lit "r = ") ++ inr (tree_construct run_op) :: chars_of (lit ";").
Lemma eval_source_is : eval_source = lit "($set op ""add 2 3"")r = ($$op);".
Proof. reflexivity. Qed.
Lemma eval_computed : pp world0 run_config 1 60 eval_source (Some (lit "a.yu-c")) (Some (lit "a.c")) process0 = Ok (PP true (lit "r = 5;") None None false 0).
Proof. vm_compute. reflexivity. Qed.
Lemma macro_source_is : macro_source = lit "($macro var (n v )($set ($n) ($v))int ($n) = ($ ($n));)($macro sq (x )($ mul ($x) ($x)))begin" ++ 10 :: lit "  ($ var k 5)" ++ 10 :: lit "($ sq k)end".
Proof. vm_compute. reflexivity. Qed.
Lemma op_literal : constant_value (NStr (raw (lit """add 2 3"""))).
Proof. split; [constructor|reflexivity]. Qed.
Definition five : construct := CExpr (EApp false true (v "add") [(false, ENum 2); (false, ENum 3)] []).
Lemma eval_document : document false SkipNone eval_source eval_contents.
Proof.
  assert (W1 : construct_ok false SkipNone set_op).
  { apply co_set; [cbn [binder_ok]; ident|]. apply wf_str; [reflexivity|left; reflexivity|]. do 7 (apply li_char; [discriminate|discriminate|]). apply li_nil. }
  assert (W2 : construct_ok false SkipNone run_op).
  { apply co_expr; [|exact Logic.I]. apply wf_app; [unfold v; well|discriminate|constructor|constructor]. }
  unfold eval_source, eval_contents. revert W1 W2. generalize set_op run_op. intros c1 c2 W1 W2.
  change (lit "r = ") with [114; 32; 61; 32]. change (lit ";") with [59]. cbn [chars_of map app].
  apply wr_construct; [exact W1|]. do 4 dchar. apply wr_construct; [exact W2|]. dchar. apply wr_end. exact Logic.I.
Qed.
Lemma five_document : document false SkipNone (lit "($add 2 3)") [inr (tree_construct five)].
Proof.
  change (lit "($add 2 3)") with (show_construct five). rewrite <- (app_nil_r (show_construct five)). apply wr_construct; [|apply wr_end; exact Logic.I].
  apply co_expr; [|exact Logic.I]. apply wf_app; [unfold v; well|not_keyword| |constructor]. apply Forall_cons; [split; [apply wf_num|reflexivity]|]. apply Forall_cons; [split; [apply wf_num|reflexivity]|constructor].
Qed.
Lemma eval_page : page run_ec [] (IndStr []) untold (runs true [] eval_contents) (lit "r = 5;") untold.
Proof.
  set (q1 := NPlain (raw (lit "r = ")) IndFalse false). set (q2 := NPlain (raw (lit ";")) IndFalse false).
  assert (E : runs true [] eval_contents = [tree_construct set_op; q1; tree_construct run_op; q2]) by (vm_compute; reflexivity). rewrite E. clear E.
  eapply PG_set; [|apply DF_value, VA_constant, op_literal|].
  { intros [H|[]]; discriminate H. }
  cbn [app trimmed_next q1 s_txt raw].
  change (lit "r = 5;") with (lit "r = " ++ (lit "5" ++ (lit ";" ++ []))).
  apply PG_run; [exists []; split; [reflexivity|]; split; [constructor|intros H; discriminate H]|]. cbn [indent_then].
  apply PG_called with (u := lit "5") (fb1 := untold); [|reflexivity|apply PG_run; [reflexivity|apply PG_end]].
  eapply CA_eval with (u := lit "($add 2 3)").
  - eapply VA_show; [apply VA_name; apply at_front|apply VT_str].
  - apply CO_inside with (w := lit "add 2 3") (u := lit "add 2 3").
    + apply (UQ_quoted 34 (lit "add 2 3")); [left; reflexivity|]. repeat (apply DN_char; [repeat split; try discriminate; intros [H1 H2]; revert H1 H2; vm_compute; congruence|discriminate|]). apply DN_end.
    + exists [], []. split; [reflexivity|]. split; [constructor|]. split; [constructor|]. split.
      * intros c r [= <- _]. discriminate.
      * intros r c E. apply (f_equal (fun l => last l 0)) in E. rewrite last_last in E. subst c. discriminate.
    + intros [r E]. discriminate E.
  - exact five_document.
  - discriminate.
  - apply RP_value with (v := NInt 5); [exact Logic.I| |apply SH_value, (VT_int 5)].
    apply VA_builtin with (vs := [NInt 2; NInt 3]).
    + apply AV_more; [apply VA_constant, int_constant|]. apply AV_more; [apply VA_constant, int_constant|apply AV_end].
    + intros [H|[]]; discriminate H.
    + apply two_ints with (f := b_add); [intros imported; reflexivity|intros st; reflexivity].
Qed.
Lemma eval_run_case : document (is_python (Some (lit "a.c"))) (skip_of run_config (is_python (Some (lit "a.c")))) eval_source eval_contents /\
  page run_ec [] (IndStr []) untold (runs true [] eval_contents) (lit "r = 5;") untold.
Proof. split; [exact eval_document|exact eval_page]. Qed.
