(** * Whole runs over written sources: C52, C57, C37 *)
From Coq Require Import List NArith ZArith Bool.
From Verif Require Import PyStr LexSpec Ast Final Shell ShellSpec EvalSpec Eval Parse PpSpec Pp PpCases ExprSpec CoreSpec RunSpec RunCases MacroCases SheetSpec SheetCases ConfSpec ReadCases.
Import ListNotations.
Open Scope list_scope.
Open Scope N_scope.

(** ** C52: a run turns a source with definitions and applications into the text it stands for *)
(** From the characters of the source to those of the result: the source [t],
    its line ends unified, is written text of contents [c]; the pieces of [c]
    become [out], by what is defined, applied and indented, and [fb] is what they
    ask of the shell; the run then yields [out], cleaned up, and [fb], without a
    failure. *)
Theorem C52_run_gives_the_meaning w cfg d t t' c out fb input output pr python sk :
  language_of output python -> comments_of python (k_skip cfg) sk ->
  unified t t' -> document python sk t' c ->
  (python = true -> no_magic is_word t') -> k_browse cfg = false ->
  page (run_ectx w cfg input output pr) [] (IndStr []) (Feedback None false) (runs true [] c) out fb ->
  exists n0, forall n, (n0 <= n)%nat ->
    pp w cfg (S d) n t input output pr =
      Ok (PP true (replace_steady (reduce_emptiness (k_reduce cfg) out)) None (f_output fb) (f_repeat fb) 0).
Proof. exact (read_document_run w cfg d t t' c out fb input output pr python sk). Qed.
Print Assumptions C52_run_gives_the_meaning.
(** A source has at most one such meaning. *)
Theorem C52_one_meaning w cfg input output pr t c out1 fb1 out2 fb2 python sk :
  language_of output python -> comments_of python (k_skip cfg) sk ->
  document python sk t c ->
  (python = true -> no_magic is_word t) -> k_browse cfg = false -> ~ In 13 t ->
  page (run_ectx w cfg input output pr) [] (IndStr []) (Feedback None false) (runs true [] c) out1 fb1 ->
  page (run_ectx w cfg input output pr) [] (IndStr []) (Feedback None false) (runs true [] c) out2 fb2 -> out1 = out2 /\ fb1 = fb2.
Proof. exact (read_one_meaning w cfg input output pr t c out1 fb1 out2 fb2 python sk). Qed.
Print Assumptions C52_one_meaning.
(** A source that defines a constant and a function whose default refers to it
    and whose body is a text of two lines, and applies it at two indentations *)
Example C52_source : run_source =
  lit "($set n 2)($set line \x.\y:($ add n 1).[int v($ x) = ($ y);" ++ 10 :: lit "  int w;])begin" ++ 10 :: lit "  ($line 5 ($ mul n 21))" ++ 10 :: lit "($line 6)end".
Proof. exact run_source_is. Qed.
Example C52_case : language_of (Some (lit "a.c")) false /\ comments_of false (k_skip run_config) SkipNone /\ document false SkipNone run_source run_contents /\
  page (run_ectx world0 run_config (Some (lit "a.yu-c")) (Some (lit "a.c")) process0) [] (IndStr []) (Feedback None false) (runs true [] run_contents)
    (lit "begin" ++ 10 :: lit "  int v5 = 42;" ++ 10 :: lit "    int w;" ++ 10 :: lit "int v6 = 3;" ++ 10 :: lit "  int w;end") (Feedback None false).
Proof. exact (conj c_output (conj (CM_none false) run_case)). Qed.
Example C52_computed : pp world0 run_config 1 60 run_source (Some (lit "a.yu-c")) (Some (lit "a.c")) process0 =
  Ok (PP true (lit "begin" ++ 10 :: lit "  int v5 = 42;" ++ 10 :: lit "    int w;" ++ 10 :: lit "int v6 = 3;" ++ 10 :: lit "  int w;end") None None false 0).
Proof. exact computed. Qed.
(** Macros: one sets a name and shows it, one writes an application *)
Example C52_macro_source : macro_source =
  lit "($macro var (n v )($set ($n) ($v))int ($n) = ($ ($n));)($macro sq (x )($ mul ($x) ($x)))begin" ++ 10 :: lit "  ($ var k 5)" ++ 10 :: lit "($ sq k)end".
Proof. exact macro_source_is. Qed.
Example C52_macro_case : language_of (Some (lit "a.c")) false /\ comments_of false (k_skip run_config) SkipNone /\ document false SkipNone macro_source macro_contents /\
  page (run_ectx world0 run_config (Some (lit "a.yu-c")) (Some (lit "a.c")) process0) [] (IndStr []) (Feedback None false) (runs true [] macro_contents)
    (lit "begin" ++ 10 :: lit "  int k = 5;" ++ 10 :: lit "25end") (Feedback None false).
Proof. exact (conj c_output (conj (CM_none false) macro_run_case)). Qed.
Example C52_macro_computed : pp world0 run_config 1 60 macro_source (Some (lit "a.yu-c")) (Some (lit "a.c")) process0 =
  Ok (PP true (lit "begin" ++ 10 :: lit "  int k = 5;" ++ 10 :: lit "25end") None None false 0).
Proof. exact macro_computed. Qed.
(** A text that is evaluated *)
Example C52_eval_source : eval_source = lit "($set op ""add 2 3"")r = ($$op);".
Proof. exact eval_source_is. Qed.
Example C52_eval_case : language_of (Some (lit "a.c")) false /\ comments_of false (k_skip run_config) SkipNone /\ document false SkipNone eval_source eval_contents /\
  page (run_ectx world0 run_config (Some (lit "a.yu-c")) (Some (lit "a.c")) process0) [] (IndStr []) (Feedback None false) (runs true [] eval_contents)
    (lit "r = 5;") (Feedback None false).
Proof. exact (conj c_output (conj (CM_none false) eval_run_case)). Qed.

(** ** C57: the files a source imports stand in the places of the imports, each library once *)
(** The source [t], its line ends unified, has the contents [x] when it is read
    knowing only its own name: the pieces of every file that is imported stand in
    the place of the import, between two marks, and a library that is known
    already contributes nothing. If these pieces become [out], where a file may
    leave out its rest, the run yields [out], cleaned up, without a failure. The
    nesting of imports is [h] deep at most. *)
Theorem C57_run_with_imports w cfg h d t t' x kn' out fb input output pr python sk key dirs :
  language_of output python -> comments_of python (k_skip cfg) sk -> source_named input key -> searched (k_dirs cfg) (w_lib w) input dirs ->
  unified t t' ->
  sheet python sk dirs (w_read w) h [key; lit "<null>"] t' x kn' ->
  (python = true -> no_magic is_word t') -> k_browse cfg = false -> key <> lit "<null>" -> (h <= d)%nat ->
  page (run_ectx w cfg input output pr) [] (IndStr []) (Feedback None false) (pieces true [] x) out fb ->
  exists n0, forall n, (n0 <= n)%nat ->
    pp w cfg (S d) n t input output pr =
      Ok (PP true (replace_steady (reduce_emptiness (k_reduce cfg) out)) None (f_output fb) (f_repeat fb) 0).
Proof. exact (read_sheet_run w cfg h d t t' x kn' out fb input output pr python sk key dirs). Qed.
Print Assumptions C57_run_with_imports.
(** A source that imports two libraries, of which the first imports the second
    as well; the second leaves out its own rest, not that of the others. One
    stands in the directory of the source, one in that of the libraries. *)
Example C57_files : main_file = lit "($import area)($import sq)a = ($ sq n);" /\ files (lit "lib/area.yu") = Some (lit "($import sq)($set side 3)($set n ($ add side 1))") /\
  files (lit "src/sq.yu") = Some (lit "($macro sq (x )($ mul ($x) ($x)))($ skip)left out").
Proof. exact sheet_files. Qed.
Example C57_case : language_of (Some (lit "a.c")) false /\ comments_of false (k_skip run_config) SkipNone /\
  source_named (Some (lit "src/a.yu-c")) (lit "a.yu-c") /\ searched (k_dirs run_config) (w_lib world1) (Some (lit "src/a.yu-c")) [lit "src"; lit "lib"] /\
  sheet false SkipNone [lit "src"; lit "lib"] (w_read world1) 2
    [lit "a.yu-c"; lit "<null>"] main_file main_parts [lit "sq.yu"; lit "area.yu"; lit "a.yu-c"; lit "<null>"] /\
  page (run_ectx world1 run_config (Some (lit "src/a.yu-c")) (Some (lit "a.c")) process0) [] (IndStr []) (Feedback None false) (pieces true [] main_parts) (lit "a = 16;") (Feedback None false).
Proof. exact read_sheet_case. Qed.
Example C57_computed : pp world1 run_config 3 60 main_file (Some (lit "src/a.yu-c")) (Some (lit "a.c")) process0 = Ok (PP true (lit "a = 16;") None None false 0).
Proof. exact sheet_computed. Qed.

(** ** C37: one pass per element of the passage list *)
(** A source of which every pass [k] up to [m] has a meaning, and asks for another
    pass unless it is the last, is processed [m] times, in order. *)
Theorem C37_source_is_processed_in_passes w cfg d t t' c out fo input output prs m python sk :
  language_of output python -> comments_of python (k_skip cfg) sk ->
  unified t t' -> document python sk t' c ->
  (python = true -> no_magic is_word t') -> k_browse cfg = false -> (0 < m)%nat ->
  (forall k, (k < m)%nat ->
     page (run_ectx w (at_passage cfg k) input output (prs k)) [] (IndStr []) (Feedback None false) (runs true [] c) (out k) (Feedback (fo k) (Nat.ltb (S k) m))) ->
  exists n0, forall n, (n0 <= n)%nat ->
    passes (run_pass w cfg (S d) n t input output prs) 0 [] true m
      (map (fun k => PP true (replace_steady (reduce_emptiness (k_reduce cfg) (out k))) None (fo k) (Nat.ltb (S k) m) 0) (List.seq 0 m)).
Proof. exact (read_document_passes w cfg d t t' c out fo input output prs m python sk). Qed.
Print Assumptions C37_source_is_processed_in_passes.
(** A source that begins with ($set a ($__PASSAGE__ x)), where [x] has the
    elements [vs], is processed once per element, and in pass [k] the name [a]
    stands for element [k]. *)
Theorem C37_pass_k_sees_element_k w cfg d t t' c a b x vs y r out fo input output prs python sk :
  language_of output python -> comments_of python (k_skip cfg) sk ->
  unified t t' -> document python sk t' c ->
  (python = true -> no_magic is_word t') -> k_browse cfg = false ->
  runs true [] c = NSet (LAtom a) (NApply (NVar (RList []) b) [x] [] None 0) :: y :: r ->
  s_txt b = lit "__PASSAGE__" -> s_txt a <> lit "__PASSAGE__" -> s_txt a <> lit "__OUTPUT_FILE__" -> vs <> [] ->
  (forall k v, nth_error vs k = Some v ->
     let ec := run_ectx w (at_passage cfg k) input output (prs k) in
     (forall imported, e_builtin ec imported (lit "__PASSAGE__") = None) /\
     value ec (InText [(s_txt a, EOpen)]) x (NList vs) /\
     forall rep, page ec [(s_txt a, EValue v)] (IndStr []) (Feedback None rep) (trimmed_next (IndStr []) (y :: r)) (out k) (Feedback (fo k) rep)) ->
  exists n0, forall n, (n0 <= n)%nat ->
    passes (run_pass w cfg (S d) n t input output prs) 0 [] true (List.length vs)
      (map (fun k => PP true (replace_steady (reduce_emptiness (k_reduce cfg) (out k))) None (fo k) (Nat.ltb (S k) (List.length vs)) 0) (List.seq 0 (List.length vs))).
Proof. exact (read_element_per_pass w cfg d t t' c a b x vs y r out fo input output prs python sk). Qed.
Print Assumptions C37_pass_k_sees_element_k.
(** Two passes, each with its own output *)
Example C37_source : pass_source = lit "($set lang ($ __PASSAGE__ ( (`c) (`py))))($set __OUTPUT_FILE__ [gen.($ lang)])in ($ lang)".
Proof. exact pass_source_is. Qed.
Example C37_source_case : exists n0, forall n, (n0 <= n)%nat ->
  passes (run_pass world0 run_config 1 n pass_source (Some (lit "a.yu-c")) (Some (lit "a.c")) (fun _ => process0)) 0 [] true 2
    [PP true (lit "in c") None (Some (lit "gen.c")) true 0; PP true (lit "in py") None (Some (lit "gen.py")) false 0].
Proof. exact pass_case. Qed.
Example C37_computed :
  pass_loop 5 (run_pass world0 run_config 1 60 pass_source (Some (lit "a.yu-c")) (Some (lit "a.c")) (fun _ => process0)) 0 [] =
    Some (true, [PP true (lit "in c") None (Some (lit "gen.c")) true 0; PP true (lit "in py") None (Some (lit "gen.py")) false 0]).
Proof. exact pass_computed. Qed.
