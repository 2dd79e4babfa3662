(** * String literals of Python, and sources with a magic comment *)
From Coq Require Import List NArith ZArith Bool String Lia ZifyBool ZifyNat ZifyN.
From Verif Require Import PyStr PyStrFacts Ast Lex LexSpec LexFacts LexFacts2 LexCases Parse ParseSpec Final Shell ShellSpec Eval Builtin EnvSpec EvalSpec EvalFacts TrimSpec TrimCases CodecFacts Pp PpSpec PpCases ProtectSpec PyLitFacts ProtectFacts ProtectCases ExprSpec ExprShow DocSpec ExprCases CoreSpec CoreFacts CoreCases RunSpec RunFacts RunCases RunHead.
Import ListNotations.
Open Scope list_scope.
Open Scope N_scope.

Ltac inside := repeat first [apply ln_nil|apply ln_escape; [discriminate|]|apply ln_char; [discriminate|discriminate|discriminate|]].
Ltac insides := repeat first [apply ls_nil|apply ls_escape|apply ls_char; [discriminate|discriminate|discriminate|]].
Ltac triples := repeat first [apply tr_nil|apply tr_escape|apply tr_char; [discriminate|discriminate|]|apply tr_quote; [let E := fresh in intros [? E]; discriminate E|]].

(** ** A text of nothing but literals and ordinary characters *)
Lemma python_run w cfg d n t input output pr : k_browse cfg = false -> k_reduce cfg = false -> is_python output = true ->
  ~ In 254 t -> ~ In 255 t ->
  exists t', unified t t' /\
    (no_magic is_word t' -> protected true (skip_of cfg true) [] t' -> pp w cfg (S d) (S (S (S n))) t input output pr = Ok (PP true t' None None false 0)).
Proof.
  intros B Rd Py N1 N2. destruct (protected_run w cfg d n t input output pr B Rd N1 N2) as (t' & U & H). exists t'. split; [exact U|].
  intros M P. apply H; [intros _; exact M|]. rewrite Py. exact P.
Qed.
Definition triple : text := lit "ur""""""($a) "" \""""""""".
Definition continued_literal : text := lit "'it\'s \" ++ 10 :: lit "($b)'".
Definition literals_source : text := lit "x = '($a) \'[' + " ++ triple ++ 10 :: lit "y = " ++ continued_literal ++ lit ", """"".
Ltac pchar := apply pr_char; [apply ps_ANY_spec; reflexivity|discriminate|discriminate|no_begin|no_begin|intros []|intros _; apply not_at_string; reflexivity|].
Lemma literals_case : protected true SkipNone [] literals_source.
Proof.
  change literals_source with (lit "x = " ++ ([] ++ 39 :: lit "($a) \'[" ++ [39]) ++ lit " + " ++ (lit "ur" ++ [34; 34; 34] ++ lit "($a) "" \""" ++ [34; 34; 34]) ++ 10 :: lit "y = " ++
    ([] ++ 39 :: lit "it\'s " ++ [92; 10] ++ lit "($b)" ++ [39]) ++ lit ", " ++ ([] ++ 34 :: [] ++ [34]) ++ []).
  do 4 pchar. apply pr_python; [reflexivity|apply pl_line; [constructor|right; reflexivity|inside|discriminate]|].
  do 3 pchar. apply pr_python; [reflexivity|apply pl_triple; [apply sx_ur; [left; reflexivity|left; reflexivity]|left; reflexivity|]|].
  { triples. }
  do 5 pchar. apply pr_python; [reflexivity|apply pl_lines; [constructor|right; reflexivity|inside|discriminate|insides]|].
  do 2 pchar. apply pr_python; [reflexivity|apply pl_line; [constructor|left; reflexivity|inside|intros _ [? E]; discriminate E]|]. apply pr_tail.
Qed.
Lemma literals_run_case : protected true (skip_of (config0 0 false false) true) [] literals_source /\ ~ In 254 literals_source /\ ~ In 255 literals_source /\
  pp world0 (config0 0 false false) 1 4 literals_source py_in py_out process0 = Ok (PP true literals_source None None false 0).
Proof. split; [exact literals_case|]. split; [missing|]. split; [missing|]. vm_compute. reflexivity. Qed.

(** ** A literal in double quotes, continued behind a line with an apostrophe *)
Definition apostrophe_head : text := lit "it's ".
Definition apostrophe_body : text := lit "it' ($add 1 2)".
Lemma apostrophe_refuted :
  exists head body, line_inside 34 head /\ lines_inside 34 body /\
    pp world0 (config0 0 false false) 1 20 (34 :: head ++ [92; 10] ++ body ++ [34]) py_in py_out process0 =
      Ok (PP true (34 :: lit "it's " ++ [92; 10] ++ lit "it' 3" ++ [34]) None None false 0) /\
    body = lit "it' ($add 1 2)".
Proof. exists apostrophe_head, apostrophe_body. split; [inside|]. split; [insides|]. split; [vm_compute; reflexivity|reflexivity]. Qed.
Lemma apostrophe_fails :
  exists head body, line_inside 34 head /\ lines_inside 34 body /\
    pp world0 (config0 0 false false) 1 20 (34 :: head ++ [92; 10] ++ body ++ [34]) py_in py_out process0 = Ok (PP false [] None None false 0).
Proof. exists apostrophe_head, (lit "is"). split; [inside|]. split; [insides|]. vm_compute. reflexivity. Qed.

(** ** A source with a magic comment, a definition and a literal *)
Definition show_n : expr := app1 "n" [].
Definition note : text := lit "'($n) it\'s'".
Definition py_rest : text := 10 :: show_construct set_n ++ lit "x = " ++ note ++ 10 :: lit "y = " ++ show_construct (CExpr show_n) ++ [].
Definition py_contents : contents := inl 10 :: inr (tree_construct set_n) :: chars_of (lit "x = ") ++ inr (NStr (raw note)) :: inl 10 :: chars_of (lit "y = ") ++ [inr (tree_construct (CExpr show_n))].
Definition py_kept : text := lit "#!/usr/bin/python" ++ [10] ++ lit "# -*- coding: utf-8 -*-".
Definition py_program : text := lit "#!/usr/bin/python" ++ [10] ++ lit "# -*- coding: yupp.utf-8 -*-" ++ py_rest.
Lemma py_program_is : py_program = lit "#!/usr/bin/python" ++ 10 :: lit "# -*- coding: yupp.utf-8 -*-" ++ 10 :: lit "($set n 2)x = '($n) it\'s'" ++ 10 :: lit "y = ($ n)".
Proof. vm_compute. reflexivity. Qed.
Lemma py_program_header : header is_word py_program py_kept py_rest 2.
Proof.
  apply (header_second is_word [] (lit "#!/usr/bin/python") 10 [] (lit "# -*- coding: yupp.utf-8 -*-") py_rest (lit "# -*- coding: utf-8 -*-")).
  - constructor.
  - apply comment_by_chars; reflexivity.
  - apply not_magic_by_search. reflexivity.
  - left. reflexivity.
  - constructor.
  - apply comment_by_chars; reflexivity.
  - apply (kept_encoding is_word (lit "# -*- coding: ") (lit "utf-8 -*-")).
    + apply (magic_by_search true). reflexivity.
    + intros a' b' E. destruct (Nat.lt_ge_cases (List.length a') 14) as [L|L]; [|exact L]. exfalso.
      assert (X : startswith (lit "yupp.") (skipn (List.length a') (lit "# -*- coding: " ++ lit "yupp." ++ lit "utf-8 -*-")) = true).
      { rewrite E, skipn_length_app. apply startswith_app. }
      do 14 (destruct a' as [|? a']; [vm_compute in X; discriminate|]). cbn [List.length] in L. lia.
Qed.
Ltac pdchar := apply wr_char; [apply ps_ANY_spec; reflexivity|discriminate|discriminate|no_begin|no_begin|intros []|intros _; apply not_at_string; reflexivity|intros []|].
Lemma py_document : document true SkipNone py_rest py_contents.
Proof.
  assert (W1 : construct_ok true SkipNone set_n) by (apply co_set; [cbn [binder_ok]; ident|apply wf_num]).
  assert (W2 : construct_ok true SkipNone (CExpr show_n)).
  { apply co_expr; [|exact Logic.I]. apply wf_app; [apply wf_var; split; [constructor|ident]|discriminate|constructor|constructor]. }
  unfold py_rest, py_contents. revert W1 W2. generalize set_n (CExpr show_n). intros c1 c2 W1 W2.
  change (lit "x = ") with [120; 32; 61; 32]. change (lit "y = ") with [121; 32; 61; 32]. cbn [chars_of map app].
  pdchar. apply wr_construct; [exact W1|]. do 4 pdchar.
  apply wr_python; [reflexivity|change note with ([] ++ 39 :: lit "($n) it\'s" ++ [39]); apply pl_line; [constructor|right; reflexivity|inside|discriminate]|].
  do 5 pdchar. apply wr_construct; [exact W2|]. apply wr_end. exact Logic.I.
Qed.
Definition py_out_text : text := 10 :: lit "x = '($n) it\'s'" ++ 10 :: lit "y = 2".
Lemma py_page : page (run_ectx world0 run_config py_in py_out process0) [] (behind py_kept) untold (runs true [] py_contents) py_out_text untold.
Proof.
  set (q1 := NPlain (raw [10]) (IndStr []) false). set (q2 := NPlain (raw (lit "x = ")) IndFalse false). set (q3 := NPlain (raw (10 :: lit "y = ")) IndFalse false).
  assert (E : runs true [] py_contents = [q1; tree_construct set_n; q2; NStr (raw note); q3; tree_construct (CExpr show_n)]) by (vm_compute; reflexivity). rewrite E. clear E.
  change py_out_text with ([10] ++ lit "x = " ++ note ++ (10 :: lit "y = ") ++ lit "2" ++ []).
  apply PG_run; [reflexivity|]. cbn [indent_then].
  eapply PG_set; [|apply DF_value, VA_constant, int_constant|].
  { intros [H|[]]; discriminate H. }
  cbn [app]. change [(s_txt (raw (lit "n")), EValue (NInt 2))] with after_n. cbn [trimmed_next q2].
  apply PG_run; [exists []; split; [reflexivity|]; split; [constructor|intros H; discriminate H]|]. cbn [indent_then].
  apply (PG_string _ _ _ _ (raw note)). apply (PG_run _ _ _ _ (raw (10 :: lit "y = ")) IndFalse false _ (10 :: lit "y = ")); [reflexivity|]. cbn [indent_then].
  apply PG_applied with (v := NInt 2) (u := lit "2").
  { eapply VA_show; [apply VA_name; apply at_front|apply VT_int]. }
  { apply SH_value, VT_int. }
  { change (placed run_ec [] (join [10] [lit "2"]) (lit "2")). apply placed_lines; [discriminate|reflexivity|reflexivity]. }
  apply PG_end.
Qed.
Lemma py_program_case : header is_word py_program py_kept py_rest 2 /\ document true (skip_of run_config true) py_rest py_contents /\
  page (run_ectx world0 run_config py_in py_out process0) [] (behind py_kept) (Feedback None false) (runs true [] py_contents) py_out_text (Feedback None false) /\
  pp world0 run_config 1 20 py_program py_in py_out process0 =
    Ok (PP true (lit "#!/usr/bin/python" ++ 10 :: lit "# -*- coding: utf-8 -*-" ++ 10 :: lit "x = '($n) it\'s'" ++ 10 :: lit "y = 2") None None false 2).
Proof. split; [exact py_program_header|]. split; [exact py_document|]. split; [exact py_page|]. vm_compute. reflexivity. Qed.
