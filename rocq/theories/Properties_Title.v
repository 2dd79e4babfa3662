(** * The title of the output

    Statements only; each proof is one lemma of the facts files. *)
From Coq Require Import String List NArith ZArith.
From Verif Require Import PyStr Ast Eval Builtin Builtin2 Title TitleSpec TitleFacts TitleCases TextSpec EnvSpec EvalSpec NameSpec ConfSpec Shell Pp EgCases.
Import ListNotations.
Open Scope N_scope.

(** ** C64: the generated title is a comment *)
(** In a run whose output is named by [output] the call of __TITLE__, with or without its
    argument, is a comment of the language of the output and tells the names of the source and
    of the output. *)
Theorem C64_title_is_a_comment_partial w cfg input output pr parse cx tool version n now other python a args vs e s e2 s2 file pos :
  s_txt a = lit "__TITLE__" -> unknown e (s_txt a) -> (forall im, w_scripts w im (s_txt a) = None) ->
  not_configured (k_define cfg) (s_txt a) -> dict_get (s_txt a) (pr_defines pr) = None ->
  language_of output python -> source_named input n ->
  w_rest w = more_builtins cx input (titled tool version now input output other) ->
  evals (run_ectx w cfg input output pr) parse (NList args) e s (NList vs) e2 s2 -> is_term (NList vs) = true -> (List.length vs <= 1)%nat ->
  Forall one_line [tool; version; n; now; y_output s2] -> ~ In 47 tool -> ~ In 47 version -> ~ In 47 now -> ~ In 47 (y_output s2) ->
  exists t, evals (run_ectx w cfg input output pr) parse (NApply (NVar (RList []) a) args [] file pos) e s (NRaw t) e2 s2 /\
    (if python then python_comment t else c_comment t) /\ (exists i, occurs_at n t i) /\ (exists i, occurs_at (y_output s2) t i).
Proof. exact (title_of_a_run w cfg input output pr parse cx tool version n now other python a args vs e s e2 s2 file pos). Qed.
Print Assumptions C64_title_is_a_comment_partial.
Example C64_case : language_of (Some (lit "a.c")) false /\ source_named (Some (lit "a.yu-c")) (lit "a.yu-c") /\
  (exists cx, w_rest (title_world "a.c") = more_builtins cx (Some (lit "a.yu-c")) (titled (lit "yupp") (lit "1.2") (lit "now") (Some (lit "a.yu-c")) (Some (lit "a.c")) (fun _ => None))) /\
  Forall one_line [lit "yupp"; lit "1.2"; lit "a.yu-c"; lit "now"; lit "a.c"] /\ ~ In 47 (lit "yupp") /\ ~ In 47 (lit "1.2") /\ ~ In 47 (lit "now") /\ ~ In 47 (lit "a.c").
Proof. exact c_case. Qed.
Example C64_runs : made (title_run "a.c" "($__TITLE__)") = Some (true, lit "/*  a.c was generated by yupp 1.2" ++ [10] ++ lit "    out of a.yu-c at now" ++ [10] ++ lit " */" ++ [10]) /\
  made (title_run "a.py" "($__TITLE__ 0)") = Some (true, lit "#  a.py was generated by yupp 1.2" ++ [10] ++ lit "#  out of a.yu-c" ++ [10]).
Proof. exact runs. Qed.

(** The argument tells whether the title has the time: it is left out if it is false. *)
Theorem C64_title_has_the_time w cfg input output pr parse cx tool version n now other python a args vs e s e2 s2 file pos :
  s_txt a = lit "__TITLE__" -> unknown e (s_txt a) -> (forall im, w_scripts w im (s_txt a) = None) ->
  not_configured (k_define cfg) (s_txt a) -> dict_get (s_txt a) (pr_defines pr) = None ->
  language_of output python -> source_named input n ->
  w_rest w = more_builtins cx input (titled tool version now input output other) ->
  evals (run_ectx w cfg input output pr) parse (NList args) e s (NList vs) e2 s2 -> is_term (NList vs) = true -> (List.length vs <= 1)%nat ->
  exists before after, let t timed := before ++ (if timed : bool then lit "at " ++ now else []) ++ after in
    forall timed, match vs with [] => timed = true | v :: _ => timed = truthy v end ->
    evals (run_ectx w cfg input output pr) parse (NApply (NVar (RList []) a) args [] file pos) e s (NRaw (t timed)) e2 s2.
Proof. exact (title_time w cfg input output pr parse cx tool version n now other python a args vs e s e2 s2 file pos). Qed.
Print Assumptions C64_title_has_the_time.

(** A source that names another output gets a title of that name, still in the language of the
    output it was started with. *)
Theorem C64_title_is_a_comment_refuted : exists p t, title_run "a.c" "($set __OUTPUT_FILE__ ""b.py"")($__TITLE__ 0)" = Ok p /\
  p_output p = Some (lit "b.py") /\ p_plain p = t ++ [10] /\ ~ python_comment t.
Proof. exact follows_not. Qed.
Print Assumptions C64_title_is_a_comment_refuted.
(** A name with the end of a comment ends the title early. *)
Theorem C64_title_ends_early_refuted : exists p t, title_run "a.c" "($set __OUTPUT_FILE__ ""b*/c"")($__TITLE__ 0)" = Ok p /\ p_plain p = t ++ [10] /\ ~ c_comment t.
Proof. exact ends_early. Qed.
Print Assumptions C64_title_ends_early_refuted.
