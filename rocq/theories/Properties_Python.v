(** * Python sources: C43 with constructs, C56 *)
From Coq Require Import List NArith ZArith Bool String.
From Verif Require Import PyStr LexSpec Ast Lex Parse ParseSpec Final Eval EnvSpec Shell PpSpec Pp PpCases ProtectSpec ProtectFacts ExprSpec DocSpec RunSpec RunFacts RunCases RunHead PyCases ConfSpec ReadCases.
Import ListNotations.
Open Scope list_scope.
Open Scope N_scope.

(** ** C43: the magic comment is removed, and what follows it is processed *)
Theorem C43_constructs_behind_the_comment w cfg d t t' kept rest ln c out fb input output pr sk :
  comments_of true (k_skip cfg) sk ->
  unified t t' -> language_of output true -> header is_word t' kept rest ln -> rest <> [] ->
  document true sk rest c -> k_browse cfg = false ->
  page (run_ectx w cfg input output pr) [] (behind kept) (Feedback None false) (runs true [] c) out fb ->
  exists n0, forall n, (n0 <= n)%nat -> pp w cfg (S d) n t input output pr =
    Ok (PP true (replace_steady (reduce_emptiness (k_reduce cfg) (kept ++ out))) None (f_output fb) (f_repeat fb) ln).
Proof. exact (read_header_document_run w cfg d t t' kept rest ln c out fb input output pr sk). Qed.
Print Assumptions C43_constructs_behind_the_comment.
Example C43_constructs_source : py_program =
  lit "#!/usr/bin/python" ++ 10 :: lit "# -*- coding: yupp.utf-8 -*-" ++ 10 :: lit "($set n 2)x = '($n) it\'s'" ++ 10 :: lit "y = ($ n)".
Proof. exact py_program_is. Qed.
Example C43_constructs_case : header is_word py_program py_kept py_rest 2 /\ language_of py_out true /\ comments_of true (k_skip run_config) SkipNone /\ document true SkipNone py_rest py_contents /\
  page (run_ectx world0 run_config py_in py_out process0) [] (behind py_kept) (Feedback None false) (runs true [] py_contents) py_out_text (Feedback None false) /\
  pp world0 run_config 1 20 py_program py_in py_out process0 =
    Ok (PP true (lit "#!/usr/bin/python" ++ 10 :: lit "# -*- coding: utf-8 -*-" ++ 10 :: lit "x = '($n) it\'s'" ++ 10 :: lit "y = 2") None None false 2).
Proof. exact read_program_case. Qed.

(** ** C56: string literals of a Python output are left alone *)
(** Wherever the parser stands at a literal, with or without a prefix, of one
    line, continued or between three quotes, it takes the literal as it is. *)
Theorem C56_literal_taken_whole cx imp k w rest f p s :
  c_python cx = true -> python_literal w rest ->
  text_item cx imp k (Src (w ++ rest) f p) s = Ok (Src rest f (p + Z.of_nat (List.length w)), Some [NStr (Src w f p)], s).
Proof. exact (python_item cx imp k w rest f p s). Qed.
Print Assumptions C56_literal_taken_whole.
(** A run on a text whose constructs are all in literals and comments returns the text. *)
Theorem C56_whole_run_partial w cfg d n t input output pr sk :
  comments_of true (k_skip cfg) sk ->
  k_browse cfg = false -> k_reduce cfg = false -> language_of output true -> ~ In 254 t -> ~ In 255 t ->
  exists t', unified t t' /\
    (no_magic is_word t' -> protected true sk [] t' ->
     pp w cfg (S d) (S (S (S n))) t input output pr = Ok (PP true t' None None false 0)).
Proof. exact (read_python_run w cfg d n t input output pr sk). Qed.
Print Assumptions C56_whole_run_partial.
Example C56_case : language_of py_out true /\ comments_of true (k_skip (config0 0 false false)) SkipNone /\ protected true SkipNone [] literals_source /\ ~ In 254 literals_source /\ ~ In 255 literals_source /\
  pp world0 (config0 0 false false) 1 4 literals_source py_in py_out process0 = Ok (PP true literals_source None None false 0).
Proof. exact (conj py_output (conj (CM_none true) literals_run_case)). Qed.
Example C56_case_source : literals_source =
  lit "x = '($a) \'[' + ur""""""($a) "" \""""""""" ++ 10 :: lit "y = 'it\'s \" ++ 10 :: lit "($b)', """"".
Proof. reflexivity. Qed.
(** A literal in double quotes that is continued, and has an apostrophe in its
    first line, ends at the next apostrophe: what follows is processed ... *)
Theorem C56_continued_literal_refuted :
  exists head body, line_inside 34 head /\ lines_inside 34 body /\
    pp world0 (config0 0 false false) 1 20 (34 :: head ++ [92; 10] ++ body ++ [34]) py_in py_out process0 =
      Ok (PP true (34 :: lit "it's " ++ [92; 10] ++ lit "it' 3" ++ [34]) None None false 0) /\
    body = lit "it' ($add 1 2)".
Proof. exact apostrophe_refuted. Qed.
Print Assumptions C56_continued_literal_refuted.
(** ... and without one the run fails. *)
Theorem C56_continued_literal_fails_refuted :
  exists head body, line_inside 34 head /\ lines_inside 34 body /\
    pp world0 (config0 0 false false) 1 20 (34 :: head ++ [92; 10] ++ body ++ [34]) py_in py_out process0 = Ok (PP false [] None None false 0).
Proof. exact apostrophe_fails. Qed.
Print Assumptions C56_continued_literal_fails_refuted.
