(** Concrete cases and counter-examples for the shell (proofs only). *)
From Coq Require Import List NArith ZArith Bool Lia.
From Coq Require Import ZifyBool ZifyNat ZifyN.
From Verif Require Import PyStr Ast Lex Shell PyStrFacts ShellSpec ShellFacts ShellFacts2 ShellFacts3.
Import ListNotations.
Open Scope N_scope.

Lemma settings_in_force defaults global loc st k d :
  NoDup (map fst defaults) -> In (k, d) setting_defaults ->
  setting (process_py defaults global loc st) k = Some (in_force defaults global loc k d).
Proof.
  intros H1 H2. rewrite (settings_determined _ _ _ _ _ _ H1 H2). unfold in_force, list_key. cbn [existsb].
  rewrite orb_false_r, orb_assoc. destruct (effective defaults global loc k) as [[]|]; reflexivity.
Qed.

(** C33 *)
Lemma stem_of d b : (d = [] \/ exists e, d = e ++ [47]) -> has_char 47 b = false ->
  existsb (fun c => negb (c =? 46)) b = true -> stem (d ++ b).
Proof.
  intros Hd Hb Hx. exists d, b. split; [reflexivity|]. split; [exact Hd|]. split.
  - intros H. unfold has_char in Hb. assert (existsb (N.eqb 47) b = true); [|congruence].
    apply existsb_exists. exists 47. split; [exact H|reflexivity].
  - apply existsb_exists in Hx as (c & Hc & Hn). apply Exists_exists. exists c. split; [exact Hc|lia].
Qed.
Lemma output_case :
  stem (lit "src/main") /\ any_yu (lit "Yu") /\ ext (lit "cpp") /\
  output_fn [] (lit "src/main.Yu-cpp") = lit "src/main.cpp" /\
  output_fn [] (lit "src/main.cpp.Yu") = lit "src/main.cpp" /\
  output_fn [] (lit "src/main.Yu") = lit "src/main.yugen" /\
  output_fn [] (lit "src/main.cpp") = lit "src/main.yugen.cpp" /\
  output_fn [] (lit "src/main") = lit "src/main.yugen" /\
  output_fn (lit "gen") (lit "src/main.cpp.yu") = lit "gen/main.cpp".
Proof.
  split; [apply (stem_of (lit "src/") (lit "main")); [right; exists (lit "src"); reflexivity|reflexivity|reflexivity]|].
  split; [exists 89, 117; repeat split; [right|left]; reflexivity|].
  split; [split; [discriminate|split; vm_compute; intuition discriminate]|].
  repeat split; vm_compute; reflexivity.
Qed.
Lemma output_collision : exists a b, a <> b /\ output_fn [] a = output_fn [] b.
Proof. exists (lit "a.yu-c"), (lit "a.c.yu"). split; [discriminate|vm_compute; reflexivity]. Qed.

(** C34, C35 *)
Definition case_fs : fs := fs_set (lit "a.c") (Some (File (lit "old") 1 true))
  (fs_set (lit "a.c.bak") (Some (File (lit "older") 0 true)) (fun _ => None)).
Definition case_pp (t : text) : ppres := PP true t None None false 0.
Lemma crash_case :
  let r := case_pp (lit "new") in
  p_ok r = true /\ holds case_fs (stream_fn r (lit "a.c")) (lit "old") /\
  (* dies after two characters were written: the old text is in the backup *)
  let s := snd (fst (pp_stream 5 true r (lit "a.c") [Done; Done; Done; Done; Dies 2] case_fs)) in
  holds s (lit "a.c") (lit "ne") /\ holds s (lit "a.c.bak") (lit "old").
Proof.
  cbn zeta. split; [reflexivity|]. split; [eexists; split; vm_compute; reflexivity|].
  split; eexists; (split; [vm_compute; reflexivity|reflexivity]).
Qed.
Lemma completed_case :
  let '(v, s, st) := pp_stream 5 true (case_pp (lit "new")) (lit "a.c") [] case_fs in
  st = Completed /\ s (lit "a.c") = Some (File (lit "new") 5 true) /\
  s (lit "a.c.bak") = Some (File (lit "old") 1 true).
Proof. vm_compute. repeat split. Qed.
Lemma reported_success : exists now ro r fn_o fates s,
  let '((ok, _, fn), s', _) := pp_stream now ro r fn_o fates s in
  ok = true /\ ~ holds s' fn (p_plain r).
Proof.
  exists 5%Z, true, (case_pp (lit "new")), (lit "a.c"), [Fails 0], (fun _ => None).
  vm_compute. split; [reflexivity|]. intros (f & H & _). discriminate.
Qed.
Lemma failed_overwrites : exists now ro r fn_o s, p_ok r = false /\
  snd (fst (pp_stream now ro r fn_o [] s)) fn_o <> s fn_o.
Proof.
  exists 5%Z, true, (PP false (lit "T()") None None false 0), (output_fn [] (lit "x.ast.yu")),
    (fs_set (lit "x.ast") (Some (File (lit "old") 1 false)) (fun _ => None)).
  split; [reflexivity|]. vm_compute. discriminate.
Qed.
Lemma failed_case :
  let r := PP false (lit "T()") None None false 0 in
  p_ok r = false /\ snd (splitext (lit "a.c")) <> lit ".ast" /\
  let s := snd (fst (pp_stream 5 true r (lit "a.c") [] case_fs)) in
  holds s (lit "a.ast") (lit "T()") /\ s (lit "a.c") = case_fs (lit "a.c").
Proof.
  cbn zeta. split; [reflexivity|]. split; [discriminate|].
  split; [eexists; split; [vm_compute; reflexivity|reflexivity]|vm_compute; reflexivity].
Qed.

(** C36 *)
Definition fail_run (fn : text) (k : nat) (w : nat) : outcome * nat := (Out false false, S w).
Lemma exit_refuted : exists (files : list text) failed,
  (exists w', file_loop 1 fail_run files 0 O = Some (failed, w')) /\ failed = 64%Z /\ script_status failed = 0%Z.
Proof.
  exists (repeat (lit "a") 64), 64%Z. split; [|split; reflexivity].
  exists 64%nat. vm_compute. reflexivity.
Qed.
Lemma console_refuted : forall failed, console_status failed = 0%Z.
Proof. reflexivity. Qed.
Definition mixed_run (fn : text) (k : nat) (w : nat) : outcome * nat :=
  (Out (negb (teqb fn (lit "bad"))) (k <? 2)%nat, S w).
Lemma status_case :
  file_loop 5 mixed_run [lit "a"; lit "bad"; lit "b"] 0 O = Some (1%Z, 7%nat) /\ script_status 1 = 4%Z.
Proof. vm_compute. split; reflexivity. Qed.

(** C37 *)
Lemma passes_case : passes (mixed_run (lit "a")) 0 O true 3 3%nat /\ passes (mixed_run (lit "bad")) 0 O false 1 1%nat.
Proof.
  split.
  - eapply pa_more; [reflexivity|reflexivity|reflexivity|].
    eapply pa_more; [reflexivity|reflexivity|reflexivity|].
    eapply pa_last; reflexivity.
  - eapply pa_fail; reflexivity.
Qed.

(** C38 *)
(** a preprocessor that copies the tracked source *)
Definition copy_pp (s : fs) : ppres :=
  PP true (match s (lit "m.yu") with Some f => f_data f | None => [] end) None None false 1.
Definition copy_cfg : pcfg := PCfg false [] false.
Lemma cache_case :
  determined copy_cfg copy_pp (lit "m.yu") /\
  exists s, history copy_cfg copy_pp (lit "m.yu") (lit "m") 4 s /\
  fst (fst (proc_stream copy_cfg copy_pp (lit "m.yu") (lit "m") 5 [] s)) = FromCache (lit "new") 2.
Proof.
  split.
  - intros s1 s2 H. unfold copy_pp. specialize (H (lit "m.yu") (or_introl eq_refl)).
    destruct (s1 (lit "m.yu")), (s2 (lit "m.yu")); cbn in H; congruence.
  - set (s0 := (fun _ => None) : fs). set (s1 := fs_set (lit "m.yu") (Some (File (lit "old") 1 false)) s0).
    set (s2 := snd (fst (proc_stream copy_cfg copy_pp (lit "m.yu") (lit "m") 2 [] s1))).
    set (s3 := fs_set (lit "m.yu") (Some (File (lit "new") 3 false)) s2).
    set (s4 := snd (fst (proc_stream copy_cfg copy_pp (lit "m.yu") (lit "m") 4 [] s3))).
    exists s4. split; [|vm_compute; reflexivity].
    apply (h_load _ _ _ _ 3 s3 4 (fst (fst (proc_stream copy_cfg copy_pp (lit "m.yu") (lit "m") 4 [] s3))) s4
             (snd (proc_stream copy_cfg copy_pp (lit "m.yu") (lit "m") 4 [] s3))); [lia| |destruct (proc_stream _ _ _ _ 4 _ _) as [[? ?] ?]; reflexivity].
    apply (h_edit _ _ _ _ 2); [lia|discriminate|].
    apply (h_load _ _ _ _ 1 s1 2 (fst (fst (proc_stream copy_cfg copy_pp (lit "m.yu") (lit "m") 2 [] s1))) s2
             (snd (proc_stream copy_cfg copy_pp (lit "m.yu") (lit "m") 2 [] s1))); [lia| |destruct (proc_stream _ _ _ _ 2 _ _) as [[? ?] ?]; reflexivity].
    apply (h_edit _ _ _ _ 0); [lia|discriminate|].
    apply h_start; [reflexivity|]. intros x f. discriminate.
Qed.
(** what the preprocessor reads may include files that are not declared *)
Definition lib_pp (s : fs) : ppres :=
  PP true (match s (lit "l.yu") with Some f => f_data f | None => [] end) None None false 1.
Lemma cache_undeclared : exists s,
  history copy_cfg lib_pp (lit "m.yu") (lit "m") 4 s /\
  exists data, fst (fst (proc_stream copy_cfg lib_pp (lit "m.yu") (lit "m") 5 [] s)) = FromCache data 2
  /\ data <> p_plain (lib_pp s).
Proof.
  set (s0 := fs_set (lit "l.yu") (Some (File (lit "old") 0 false)) (fun _ => None)).
  set (s1 := fs_set (lit "m.yu") (Some (File (lit "x") 1 false)) s0).
  set (s2 := snd (fst (proc_stream copy_cfg lib_pp (lit "m.yu") (lit "m") 2 [] s1))).
  set (s3 := fs_set (lit "l.yu") (Some (File (lit "new") 4 false)) s2).
  exists s3. split.
  - apply (h_edit _ _ _ _ 2); [lia|discriminate|].
    apply (h_load _ _ _ _ 1 s1 2 (fst (fst (proc_stream copy_cfg lib_pp (lit "m.yu") (lit "m") 2 [] s1))) s2
             (snd (proc_stream copy_cfg lib_pp (lit "m.yu") (lit "m") 2 [] s1))); [lia| |destruct (proc_stream _ _ _ _ 2 _ _) as [[? ?] ?]; reflexivity].
    apply (h_edit _ _ _ _ 0); [lia|discriminate|].
    apply h_start; [reflexivity|]. intros x f. unfold s0, fs_set. destruct (teqb x (lit "l.yu")); [|discriminate].
    intros [= <-]. cbn. lia.
  - exists (lit "old"). split; vm_compute; [reflexivity|discriminate].
Qed.
(** a run that dies while writing leaves a cut output that later loads serve *)
Lemma cache_crash : exists s fates s' v st data,
  s (lit "m") = None /\ proc_stream copy_cfg copy_pp (lit "m.yu") (lit "m") 2 fates s = (v, s', st) /\ st = Crashed /\
  fst (fst (proc_stream copy_cfg copy_pp (lit "m.yu") (lit "m") 3 [] s')) = FromCache data 2 /\
  p_plain (copy_pp s') <> data.
Proof.
  exists (fs_set (lit "m.yu") (Some (File (lit "text") 1 false)) (fun _ => None)), [Done; Dies 2].
  eexists. eexists. eexists. exists (lit "te").
  split; [reflexivity|]. split; [reflexivity|]. split; [reflexivity|].
  split; vm_compute; [reflexivity|discriminate].
Qed.
(** the number of removed header lines reported for a cached output *)
Lemma cache_shrink : exists s v1 v2 d k1 k2,
  (* a header whose coding line is not written with a colon *)
  fst (fst (proc_stream copy_cfg copy_pp (lit "m.yu") (lit "m") 2 [] s)) = v1 /\ v1 = Generated true d k1 /\
  fst (fst (proc_stream copy_cfg copy_pp (lit "m.yu") (lit "m") 3 []
    (snd (fst (proc_stream copy_cfg copy_pp (lit "m.yu") (lit "m") 2 [] s))))) = v2 /\ v2 = FromCache d k2 /\ k1 <> k2.
Proof.
  exists (fs_set (lit "m.yu") (Some (File (lit "#coding=yupp") 1 false)) (fun _ => None)).
  do 5 eexists. split; [reflexivity|]. split; [vm_compute; reflexivity|].
  split; [reflexivity|]. split; [vm_compute; reflexivity|discriminate].
Qed.

(** C39 *)
Lemma settings_case :
  in_force [(lit "pp_browse", VBool false)] (Some [(lit "pp_browse", VBool true); (lit "quiet", VBool true)])
    (Some [(lit "quiet", VBool false)]) (lit "quiet") (VBool false) = VBool false /\
  in_force [(lit "pp_browse", VBool false)] (Some [(lit "pp_browse", VBool true); (lit "quiet", VBool true)])
    (Some [(lit "quiet", VBool false)]) (lit "pp_browse") (VBool false) = VBool true /\
  In (lit "quiet", VBool false) setting_defaults /\ NoDup (map fst [(lit "pp_browse", VBool false)]).
Proof.
  split; [vm_compute; reflexivity|]. split; [vm_compute; reflexivity|].
  split; [vm_compute; tauto|]. constructor; [intros []|constructor].
Qed.
(** constants defined for one file are still known while processing the next *)
Lemma defines_leak : exists defaults loc1 loc2 k v,
  let st0 := PState [] [] in
  let alone := process_py defaults None loc2 st0 in
  let after := process_py defaults None loc2 (process_py defaults None loc1 st0) in
  dict_get k (ps_builtin alone) = None /\ dict_get k (ps_builtin after) = Some v.
Proof.
  exists [], (Some [(lit "pp_define", VList [lit "DEBUG:1"])]), None, (lit "DEBUG"), (VStr (lit "1")).
  vm_compute. split; reflexivity.
Qed.
Lemma output_dir_ignored :
  in_force [] (Some [(lit "output_dir", VStr (lit "gen"))]) None (lit "output_dir") (VStr []) = VStr [].
Proof. vm_compute. reflexivity. Qed.

(** C45 *)
Lemma session_case :
  repl [] [lit "a"; lit "b"; lit " test "; lit "test"; lit "c"; lit "exit"; lit "d"; lit "test"]
  = [lit "a" ++ [10] ++ lit "b" ++ [10]; []] /\
  plain_line (lit "a") /\ is_command (lit "test") (lit " test ").
Proof.
  split; [vm_compute; reflexivity|]. split.
  - split; [rewrite <- exit_command|rewrite <- test_command]; discriminate.
  - apply test_command. reflexivity.
Qed.
Lemma blank_session_case : repl_runs [lit "a"; lit "test"; lit " "; lit "test"; lit "b"; lit "test"; lit "c"] = [lit "a" ++ [10%N]; lit "b" ++ [10%N]].
Proof. vm_compute. reflexivity. Qed.
