(** * The shell: output names, files, passes, cache, settings, interactive loop

    Statements only; each proof is one lemma of the facts files. *)
From Coq Require Import List NArith ZArith.
From Verif Require Import PyStr Ast Shell ShellSpec ShellFacts ShellFacts2 ShellFacts3 ShellCases.
Import ListNotations.
Open Scope N_scope.

(** ** C33: output names *)
Theorem C33_output_is_not_the_input : forall dir fn, basename (output_fn dir fn) <> basename fn.
Proof. exact output_not_input. Qed.
Print Assumptions C33_output_is_not_the_input.

Theorem C33_yu_dash_E : forall p y e, stem p -> any_yu y -> ext e ->
  output_fn [] (p ++ 46 :: y ++ 45 :: e) = p ++ 46 :: e.
Proof. exact output_yu_e. Qed.
Print Assumptions C33_yu_dash_E.

Theorem C33_E_yu : forall p e y, stem p -> any_yu y -> ext e ->
  output_fn [] ((p ++ 46 :: e) ++ 46 :: y) = p ++ 46 :: e.
Proof. exact output_e_yu. Qed.
Print Assumptions C33_E_yu.

Theorem C33_yu : forall p y, stem p -> snd (splitext p) = [] -> any_yu y ->
  output_fn [] (p ++ 46 :: y) = p ++ lit ".yugen".
Proof. exact output_yu. Qed.
Print Assumptions C33_yu.

Theorem C33_E : forall p e, stem p -> ext e -> (forall y r, e = y ++ r -> ~ any_yu y) ->
  output_fn [] (p ++ 46 :: e) = p ++ lit ".yugen" ++ 46 :: e.
Proof. exact output_e. Qed.
Print Assumptions C33_E.

Theorem C33_no_extension : forall p, snd (splitext p) = [] -> output_fn [] p = p ++ lit ".yugen".
Proof. exact output_none. Qed.
Print Assumptions C33_no_extension.

(** Two sources may share their output. *)
Theorem C33_distinct_outputs_refuted : exists a b, a <> b /\ output_fn [] a = output_fn [] b.
Proof. exact output_collision. Qed.
Print Assumptions C33_distinct_outputs_refuted.

Example C33_case :
  stem (lit "src/main") /\ any_yu (lit "Yu") /\ ext (lit "cpp") /\
  output_fn [] (lit "src/main.Yu-cpp") = lit "src/main.cpp" /\
  output_fn [] (lit "src/main.cpp.Yu") = lit "src/main.cpp" /\
  output_fn [] (lit "src/main.Yu") = lit "src/main.yugen" /\
  output_fn [] (lit "src/main.cpp") = lit "src/main.yugen.cpp" /\
  output_fn [] (lit "src/main") = lit "src/main.yugen" /\
  output_fn (lit "gen") (lit "src/main.cpp.yu") = lit "gen/main.cpp".
Proof. exact output_case. Qed.

(** ** C34: the previous output survives a crash *)
Theorem C34_old_content_survives : forall now ro r fn_o fates s d,
  p_ok r = true -> holds s (stream_fn r fn_o) d ->
  let s' := snd (fst (pp_stream now ro r fn_o fates s)) in
  holds s' (stream_fn r fn_o) d \/ holds s' (stream_fn r fn_o ++ lit ".bak") d.
Proof. exact crash_safe. Qed.
Print Assumptions C34_old_content_survives.

Theorem C34_after_completion : forall now ro r fn_o fates s,
  p_ok r = true ->
  let '(_, s', st) := pp_stream now ro r fn_o fates s in
  (st = Completed \/ (fates = [] /\ st = Raised)) ->
  (exists f, s' (stream_fn r fn_o) = Some f /\ f_data f = p_plain r /\ f_mtime f = now) /\
  s' (stream_fn r fn_o ++ lit ".bak") =
    (if isfile s (stream_fn r fn_o) then s (stream_fn r fn_o) else s (stream_fn r fn_o ++ lit ".bak")).
Proof. exact stream_completed. Qed.
Print Assumptions C34_after_completion.

Theorem C34_completes_without_faults : forall now ro r fn_o s,
  p_ok r = true -> p_json r = None -> snd (pp_stream now ro r fn_o [] s) = Completed.
Proof. exact stream_completes. Qed.
Print Assumptions C34_completes_without_faults.

Theorem C34_other_files_untouched : forall now ro r fn_o fates s x,
  x <> stream_fn r fn_o -> x <> stream_fn r fn_o ++ lit ".bak" -> x <> stream_fn r fn_o ++ lit ".json" ->
  snd (fst (pp_stream now ro r fn_o fates s)) x = s x.
Proof. exact others_kept. Qed.
Print Assumptions C34_other_files_untouched.

Example C34_case :
  let r := case_pp (lit "new") in
  p_ok r = true /\ holds case_fs (stream_fn r (lit "a.c")) (lit "old") /\
  let s := snd (fst (pp_stream 5 true r (lit "a.c") [Done; Done; Done; Done; Dies 2] case_fs)) in
  holds s (lit "a.c") (lit "ne") /\ holds s (lit "a.c.bak") (lit "old").
Proof. exact crash_case. Qed.
Example C34_case_complete :
  let '(v, s, st) := pp_stream 5 true (case_pp (lit "new")) (lit "a.c") [] case_fs in
  st = Completed /\ s (lit "a.c") = Some (File (lit "new") 5 true) /\
  s (lit "a.c.bak") = Some (File (lit "old") 1 true).
Proof. exact completed_case. Qed.

(** ** C46: reported success *)
(** An error while writing is logged, but the run still counts as successful. *)
Theorem C46_reported_success_refuted : exists now ro r fn_o fates s,
  let '((ok, _, fn), s', _) := pp_stream now ro r fn_o fates s in
  ok = true /\ ~ holds s' fn (p_plain r).
Proof. exact reported_success. Qed.
Print Assumptions C46_reported_success_refuted.

(** ** C35: a failed run does not touch the output *)
Theorem C35_output_and_backup_kept : forall now ro r fn_o fates s,
  p_ok r = false -> snd (splitext fn_o) <> lit ".ast" ->
  let s' := snd (fst (pp_stream now ro r fn_o fates s)) in
  s' fn_o = s fn_o /\ s' (fn_o ++ lit ".bak") = s (fn_o ++ lit ".bak").
Proof. exact failed_output. Qed.
Print Assumptions C35_output_and_backup_kept.

Theorem C35_only_the_dump_is_written : forall now ro r fn_o fates s x,
  p_ok r = false -> x <> fst (splitext fn_o) ++ lit ".ast" ->
  snd (fst (pp_stream now ro r fn_o fates s)) x = s x.
Proof. exact failed_keeps. Qed.
Print Assumptions C35_only_the_dump_is_written.

(** An output whose own extension is .ast is overwritten by the dump. *)
Theorem C35_ast_output_refuted : exists now ro r fn_o s, p_ok r = false /\
  snd (fst (pp_stream now ro r fn_o [] s)) fn_o <> s fn_o.
Proof. exact failed_overwrites. Qed.
Print Assumptions C35_ast_output_refuted.

Example C35_case :
  let r := PP false (lit "T()") None None false 0 in
  p_ok r = false /\ snd (splitext (lit "a.c")) <> lit ".ast" /\
  let s := snd (fst (pp_stream 5 true r (lit "a.c") [] case_fs)) in
  holds s (lit "a.ast") (lit "T()") /\ s (lit "a.c") = case_fs (lit "a.c").
Proof. exact failed_case. Qed.

(** ** C36: exit status *)
Theorem C36_counts_failed_files : forall W (run : text -> nat -> W -> outcome * W) n files failed w failed' w',
  file_loop n run files failed w = Some (failed', w') -> all_files run files w (failed' - failed) w'.
Proof. exact @file_loop_all. Qed.
Print Assumptions C36_counts_failed_files.

Theorem C36_zero_iff_all_ok_below_64_files : forall W (run : text -> nat -> W -> outcome * W) n files w failed w',
  (length files < 64)%nat -> file_loop n run files 0 w = Some (failed, w') ->
  (script_status failed = 0%Z <-> all_files run files w 0 w').
Proof. exact @status_small. Qed.
Print Assumptions C36_zero_iff_all_ok_below_64_files.

Theorem C36_when_zero : forall failed, script_status failed = 0%Z <-> (failed mod 64 = 0)%Z.
Proof. exact status_zero. Qed.
Print Assumptions C36_when_zero.

(** 64 failing files give exit status 0. *)
Theorem C36_exit_status_refuted : exists (files : list text) failed,
  (exists w', file_loop 1 fail_run files 0 O = Some (failed, w')) /\ failed = 64%Z /\ script_status failed = 0%Z.
Proof. exact exit_refuted. Qed.
Print Assumptions C36_exit_status_refuted.

(** The installed command discards the count altogether. *)
Theorem C36_console_status_refuted : forall failed, console_status failed = 0%Z.
Proof. exact console_refuted. Qed.
Print Assumptions C36_console_status_refuted.

Example C36_case :
  file_loop 5 mixed_run [lit "a"; lit "bad"; lit "b"] 0 O = Some (1%Z, 7%nat) /\ script_status 1 = 4%Z.
Proof. exact status_case. Qed.

(** ** C37: passes (the loop; the evaluation of __PASSAGE__ is in Properties_Eval) *)
Theorem C37_loop_is_the_chain_of_passes : forall W (run : nat -> W -> outcome * W) n k w ok w',
  pass_loop n run k w = Some (ok, w') <-> exists m, (m <= n)%nat /\ passes run k w ok m w'.
Proof. exact @pass_loop_passes. Qed.
Print Assumptions C37_loop_is_the_chain_of_passes.

Theorem C37_one_pass_per_element : forall W (run : nat -> W -> outcome * W) n d k w,
  n = (k + d)%nat -> (0 < d)%nat ->
  (forall j w, (j < n)%nat -> o_ok (fst (run j w)) = true /\ o_repeat (fst (run j w)) = (S j <? n)%nat) ->
  exists w', passes run k w true d w'.
Proof. exact @passes_list. Qed.
Print Assumptions C37_one_pass_per_element.

Theorem C37_passes_are_determined : forall W (run : nat -> W -> outcome * W) k w ok1 n1 w1 ok2 n2 w2,
  passes run k w ok1 n1 w1 -> passes run k w ok2 n2 w2 -> ok1 = ok2 /\ n1 = n2 /\ w1 = w2.
Proof. exact @passes_fun. Qed.
Print Assumptions C37_passes_are_determined.

Example C37_case : passes (mixed_run (lit "a")) 0 O true 3 3%nat /\ passes (mixed_run (lit "bad")) 0 O false 1 1%nat.
Proof. exact passes_case. Qed.

(** ** C38: a cached output is never stale *)
Theorem C38_served_output_is_current : forall cfg pp fn fn_o,
  determined cfg pp fn -> (forall s, p_output (pp s) = None) ->
  snd (splitext fn_o) <> lit ".ast" -> ~ In (fn_o ++ lit ".bak") (tracked cfg fn) ->
  forall now s t fates data k s' st, history cfg pp fn fn_o now s ->
  proc_stream cfg pp fn fn_o t fates s = (FromCache data k, s', st) ->
  p_ok (pp s) = true /\ data = p_plain (pp s) /\ s' = s.
Proof. exact served_fresh. Qed.
Print Assumptions C38_served_output_is_current.

Theorem C38_generated_output_is_current : forall cfg pp fn fn_o t fates s ok data k s' st,
  proc_stream cfg pp fn fn_o t fates s = (Generated ok data k, s', st) ->
  ok = p_ok (pp s) /\ data = p_plain (pp s) /\ k = p_shrink (pp s).
Proof. exact generated_fresh. Qed.
Print Assumptions C38_generated_output_is_current.

(** Without [determined]: a library that is not a declared dependency was edited. *)
Theorem C38_undeclared_library_refuted : exists s,
  history copy_cfg lib_pp (lit "m.yu") (lit "m") 4 s /\
  exists data, fst (fst (proc_stream copy_cfg lib_pp (lit "m.yu") (lit "m") 5 [] s)) = FromCache data 2
  /\ data <> p_plain (lib_pp s).
Proof. exact cache_undeclared. Qed.
Print Assumptions C38_undeclared_library_refuted.

(** With a crash in the history: a cut output is served as complete. *)
Theorem C38_crash_refuted : exists s fates s' v st data,
  s (lit "m") = None /\ proc_stream copy_cfg copy_pp (lit "m.yu") (lit "m") 2 fates s = (v, s', st) /\ st = Crashed /\
  fst (fst (proc_stream copy_cfg copy_pp (lit "m.yu") (lit "m") 3 [] s')) = FromCache data 2 /\
  p_plain (copy_pp s') <> data.
Proof. exact cache_crash. Qed.
Print Assumptions C38_crash_refuted.

Example C38_case :
  determined copy_cfg copy_pp (lit "m.yu") /\
  exists s, history copy_cfg copy_pp (lit "m.yu") (lit "m") 4 s /\
  fst (fst (proc_stream copy_cfg copy_pp (lit "m.yu") (lit "m") 5 [] s)) = FromCache (lit "new") 2.
Proof. exact cache_case. Qed.

(** ** C39: settings *)
Theorem C39_settings_do_not_depend_on_history : forall defaults global loc st k d,
  NoDup (map fst defaults) -> In (k, d) setting_defaults ->
  setting (process_py defaults global loc st) k = Some (in_force defaults global loc k d).
Proof. exact settings_in_force. Qed.
Print Assumptions C39_settings_do_not_depend_on_history.

(** The constants defined for one file stay defined for the next. *)
Theorem C39_defined_constants_refuted : exists defaults loc1 loc2 k v,
  let st0 := PState [] [] in
  let alone := process_py defaults None loc2 st0 in
  let after := process_py defaults None loc2 (process_py defaults None loc1 st0) in
  dict_get k (ps_builtin alone) = None /\ dict_get k (ps_builtin after) = Some v.
Proof. exact defines_leak. Qed.
Print Assumptions C39_defined_constants_refuted.

(** A string setting is dropped. *)
Theorem C39_output_dir_refuted :
  in_force [] (Some [(lit "output_dir", VStr (lit "gen"))]) None (lit "output_dir") (VStr []) = VStr [].
Proof. exact output_dir_ignored. Qed.
Print Assumptions C39_output_dir_refuted.

Example C39_case :
  in_force [(lit "pp_browse", VBool false)] (Some [(lit "pp_browse", VBool true); (lit "quiet", VBool true)])
    (Some [(lit "quiet", VBool false)]) (lit "quiet") (VBool false) = VBool false /\
  in_force [(lit "pp_browse", VBool false)] (Some [(lit "pp_browse", VBool true); (lit "quiet", VBool true)])
    (Some [(lit "quiet", VBool false)]) (lit "pp_browse") (VBool false) = VBool true /\
  In (lit "quiet", VBool false) setting_defaults /\ NoDup (map fst [(lit "pp_browse", VBool false)]).
Proof. exact settings_case. Qed.

(** ** C45: interactive loop *)
Theorem C45_runs_are_the_typed_blocks : forall blocks rest ending, session_ok blocks rest ending ->
  repl [] (typed blocks rest ending) = map (fun b => block_text (fst b)) blocks.
Proof. exact repl_session. Qed.
Print Assumptions C45_runs_are_the_typed_blocks.

(** a block of white space only is not processed *)
Theorem C45_blank_blocks_are_skipped : forall blocks rest ending, session_ok blocks rest ending ->
  without_blank (map (fun b => block_text (fst b)) blocks) (repl_runs (typed blocks rest ending)).
Proof. exact repl_runs_session. Qed.
Print Assumptions C45_blank_blocks_are_skipped.
Example C45_blank_case : repl_runs [lit "a"; lit "test"; lit " "; lit "test"; lit "b"; lit "test"; lit "c"] = [lit "a" ++ [10]; lit "b" ++ [10]].
Proof. exact blank_session_case. Qed.

Theorem C45_every_input_is_a_session : forall lines, exists blocks rest ending,
  lines = typed blocks rest ending /\ session_ok blocks rest ending.
Proof. exact session_exists. Qed.
Print Assumptions C45_every_input_is_a_session.

Example C45_case :
  repl [] [lit "a"; lit "b"; lit " test "; lit "test"; lit "c"; lit "exit"; lit "d"; lit "test"]
  = [lit "a" ++ [10] ++ lit "b" ++ [10]; []] /\
  plain_line (lit "a") /\ is_command (lit "test") (lit " test ").
Proof. exact session_case. Qed.
