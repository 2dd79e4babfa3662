(** * Whole runs over sources that import libraries *)
From Coq Require Import List NArith ZArith Bool String Lia ZifyBool ZifyNat ZifyN.
From Verif Require FormatSpec FormatFacts FormatCases.
From Verif Require Import PyStr PyStrFacts Ast Lex LexSpec ProtectSpec QuoteSpec LexFacts LexFacts2 LexCases Parse ParseSpec ParseFacts3 PpFacts HeaderFacts Final Shell ShellSpec Eval Builtin EnvSpec EvalSpec EvalFacts TrimSpec TrimCases CodecFacts Pp PpSpec PpCases ProtectCases ExprSpec ExprShow DocSpec ExprCases CoreSpec CoreFacts CoreCases RunSpec RunFacts RunFacts2 RunCases MacroCases SheetSpec SheetFacts.
Import ListNotations.
Open Scope list_scope.
Open Scope N_scope.

Lemma sheet_run w cfg h d t t' x kn' out fb input output pr :
  unified t t' ->
  sheet (is_python output) (skip_of cfg (is_python output)) (directories w cfg input) (w_read w) h [input_key input; lit "<null>"] t' x kn' ->
  (is_python output = true -> no_magic is_word t') -> k_browse cfg = false -> input_key input <> lit "<null>" -> (h <= d)%nat ->
  page (run_ectx w cfg input output pr) [] (IndStr []) untold (pieces true [] x) out fb ->
  exists n0, forall n, (n0 <= n)%nat -> pp w cfg (S d) n t input output pr = Ok (yielded cfg out fb).
Proof.
  intros Hu Hx Hm Hb Hi Hd Hp. assert (Et : unify_eol t = t') by (eapply unified_fun; [apply unify_eol_unified|exact Hu]).
  set (cx := run_ctx w cfg input output). set (s0 := run_start t input output pr).
  assert (Hh : no_header cx (input_key input) t').
  { destruct (is_python output) eqn:Py; [|left; exact Py]. right. right. intros s'. apply no_magic_header, Hm. reflexivity. }
  assert (D : dict_get (input_key input) (y_source s0) = Some (match input with Some p => DPath p | None => DNone end, t')).
  { unfold s0, run_start. cbn [y_source]. rewrite dict_get_set', teqb_refl, Et. reflexivity. }
  assert (Kn : knows cx s0 [input_key input; lit "<null>"]).
  { split; [|split; [left; reflexivity|]].
    - intros n. unfold s0, run_start. cbn [y_source]. rewrite dict_mem_set'. cbn [In]. destruct (teqb_spec n (input_key input)) as [->|Hn]; cbn [orb].
      + split; auto.
      + unfold dict_mem. cbn [dict_get]. unfold source_empty. destruct (teqb_spec (lit "<null>") n) as [<-|Hn2].
        * split; auto.
        * destruct (teqb_spec n (lit "<null>")) as [->|_]; [congruence|]. split; [intros [E|[E|[]]]; congruence|discriminate].
    - exists (DPath []). unfold s0, run_start. cbn [y_source]. rewrite dict_get_set'. destruct (teqb_spec source_empty (input_key input)) as [E|_]; [symmetry in E; contradiction|]. reflexivity. }
  destruct (parse_sheet cx h d (input_key input) s0 _ _ t' x kn' Hd Hx Hh D Kn) as (l & s1 & El & Hl & [x1 Hv] & _).
  assert (Hf : fed s1 = untold) by (rewrite Hv; reflexivity). assert (Hk1 : y_shrink s1 = y_shrink s0) by (rewrite Hv; reflexivity).
  destruct (page_text (run_ectx w cfg input output pr) (yuparse cx (S d)) Hb (source_parses cx d) _ _ _ _ l s1 0%nat 0%nat Hp Hl Hf) as (s' & [n0 He] & Hs & Hk).
  exists n0. intros n Hn. unfold pp. fold cx s0. rewrite El.
  match goal with |- context [yueval ?a ?b n ?x ?y ?z] => replace (yueval a b n x y z) with (Ok (NRaw out, @nil frame, s')) end.
  - cbn [output_of str_of option_map final output_text]. unfold yielded. rewrite <- Hs, Hk, Hk1. reflexivity.
  - symmetry. rewrite (more_budget _ _ n0 n) by (try lia; rewrite He; discriminate). exact He.
Qed.

(* the file lib/area.yu:   ($import sq)($set side 3)($set n ($ add side 1))      after which nothing is left out
   the file src/sq.yu:     ($macro sq (x )($ mul ($x) ($x)))($ skip)left out
   the source src/a.yu-c:  ($import area)($import sq)a = ($ sq n); *)
Definition sq_file : text := show_construct mac_sq ++ show_construct (CExpr (app1 "skip" [])) ++ lit "left out".
Definition set_side : construct := CSet (BName (lit "side")) (ENum 3).
Definition set_sum : construct := CSet (BName (lit "n")) (app1 "add" [v "side"; ENum 1]).
Definition area_file : text := import_text [32] (lit "sq") [] ++ show_construct set_side ++ show_construct set_sum.
Definition use_n : construct := CExpr (app1 "sq" [v "n"]).
Definition main_file : text := import_text [32] (lit "area") [] ++ import_text [32] (lit "sq") [] ++ lit "a = " ++ show_construct use_n ++ lit ";".
Definition files (p : text) : option text :=
  if teqb p (lit "src/sq.yu") then Some sq_file else if teqb p (lit "lib/area.yu") then Some area_file else None.
Definition world1 : world :=
  World files (fun t => t) (fun _ => Err (Exn IOError "")) (fun _ => Err (Exn ValueError "")) (fun _ => [])
        (fun _ _ => None) (fun _ => None) (fun _ => Err (Exn SyntaxError "")) (fun _ _ => Err (Exn KeyError ""))
        (fun t => t) (fun _ => 0%Z) (fun _ => []) (lit "lib") (fun _ _ _ => lit "{}").
Lemma sheet_computed : pp world1 run_config 3 60 main_file (Some (lit "src/a.yu-c")) (Some (lit "a.c")) process0 = Ok (PP true (lit "a = 16;") None None false 0).
Proof. vm_compute. reflexivity. Qed.
Lemma sheet_files : main_file = lit "($import area)($import sq)a = ($ sq n);" /\ files (lit "lib/area.yu") = Some (lit "($import sq)($set side 3)($set n ($ add side 1))") /\
  files (lit "src/sq.yu") = Some (lit "($macro sq (x )($ mul ($x) ($x)))($ skip)left out").
Proof. repeat split; vm_compute; reflexivity. Qed.
Definition skip_rest : construct := CExpr (app1 "skip" []).
Definition sq_parts : parts := inr [tree_construct mac_sq] :: inr [tree_construct skip_rest] :: map inl (lit "left out").
Definition area_parts : parts := inr (in_place (pieces true [] sq_parts)) :: inr [tree_construct set_side] :: [inr [tree_construct set_sum]].
Definition main_parts : parts := inr (in_place (pieces true [] area_parts)) :: inr [] :: map inl (lit "a = ") ++ inr [tree_construct use_n] :: map inl (lit ";").
Definition first_known : list text := [lit "a.yu-c"; lit "<null>"].
Definition then_known : list text := [lit "sq.yu"; lit "area.yu"; lit "a.yu-c"; lit "<null>"].
Ltac schar := apply SH_char; [apply ps_ANY_spec; reflexivity|discriminate|discriminate|no_begin|no_begin|intros []|discriminate|].
Lemma side_wf : wf false SkipNone (v "side").
Proof. unfold v. well. Qed.
Lemma n_wf : wf false SkipNone (v "n").
Proof. unfold v. well. Qed.
Lemma sq_sheet dirs kn : sheet false SkipNone dirs files 0 kn sq_file sq_parts kn.
Proof.
  assert (W1 : construct_ok false SkipNone mac_sq).
  { apply co_macro; [ident|apply Forall_cons; [ident|apply Forall_nil]|apply permitted_dec; reflexivity|apply balanced_dec; reflexivity]. }
  assert (W2 : construct_ok false SkipNone skip_rest) by (apply co_expr; [apply app1_wf; [ident|constructor]|exact Logic.I]).
  unfold sq_file, sq_parts. fold skip_rest. revert W1 W2. generalize mac_sq skip_rest. intros c1 c2 W1 W2. change (lit "left out") with [108; 101; 102; 116; 32; 111; 117; 116]. cbn [map].
  apply SH_construct; [exact W1|]. apply SH_construct; [exact W2|]. do 8 schar. apply SH_end.
Qed.
Lemma one_space : Forall white [32].
Proof. constructor; [left; left; reflexivity|constructor]. Qed.
Lemma plain_unified t : forallb (fun c => negb (c =? 13)) t = true -> unified t t.
Proof.
  intros H. pose proof (unify_eol_unified t) as U. rewrite unify_id in U; [exact U|]. intros Hi. rewrite forallb_forall in H. specialize (H 13 Hi). discriminate H.
Qed.
Lemma area_sheet dirs : dirs = [lit "src"; lit "lib"] -> sheet false SkipNone dirs files 1 [lit "area.yu"; lit "a.yu-c"; lit "<null>"] area_file area_parts then_known.
Proof.
  intros ->.
  assert (W1 : construct_ok false SkipNone set_side) by (apply co_set; [cbn [binder_ok]; ident|apply wf_num]).
  assert (W2 : construct_ok false SkipNone set_sum).
  { apply co_set; [cbn [binder_ok]; ident|]. apply app1_wf; [ident|]. apply Forall_cons; [split; [exact side_wf|reflexivity]|]. apply Forall_cons; [split; [apply wf_num|reflexivity]|constructor]. }
  unfold area_file, area_parts. revert W1 W2. generalize set_side set_sum. intros c1 c2 W1 W2.
  apply SH_library with (p := lit "src/sq.yu") (t := sq_file) (u := sq_file) (kn1 := then_known); [ident|exact one_space|constructor|intros [H|[H|[H|[]]]]; discriminate H| | | |].
  - apply LF_directory; [reflexivity|]. apply ID_here. reflexivity.
  - apply plain_unified. vm_compute. reflexivity.
  - apply sq_sheet.
  - apply SH_construct; [exact W1|]. rewrite <- (app_nil_r (show_construct c2)). apply SH_construct; [exact W2|]. apply SH_end.
Qed.
Lemma main_sheet dirs : dirs = [lit "src"; lit "lib"] -> sheet false SkipNone dirs files 2 first_known main_file main_parts then_known.
Proof.
  intros ->.
  assert (W1 : construct_ok false SkipNone use_n).
  { apply co_expr; [|exact Logic.I]. apply app1_wf; [ident|]. apply Forall_cons; [split; [exact n_wf|reflexivity]|constructor]. }
  unfold main_file, main_parts. revert W1. generalize use_n. intros c1 W1. change (lit "a = ") with [97; 32; 61; 32]. change (lit ";") with [59]. cbn [map app].
  apply SH_library with (p := lit "lib/area.yu") (t := area_file) (u := area_file) (kn1 := then_known); [ident|exact one_space|constructor|intros [H|[H|[]]]; discriminate H| | | |].
  - apply LF_directory; [reflexivity|]. apply ID_later; [reflexivity|]. apply ID_here. reflexivity.
  - apply plain_unified. vm_compute. reflexivity.
  - apply area_sheet. reflexivity.
  - apply SH_known; [ident|exact one_space|constructor|left; reflexivity|]. do 4 schar. apply SH_construct; [exact W1|]. schar. apply SH_end.
Qed.
Definition four_squared : construct := CExpr (app1 "mul" [ENum 4; ENum 4]).
Lemma square_sheet : document false SkipNone (show_construct four_squared) [inr (tree_construct four_squared)].
Proof.
  rewrite <- (app_nil_r (show_construct four_squared)). apply wr_construct; [|apply wr_end; exact Logic.I].
  apply co_expr; [|exact Logic.I]. apply app1_wf; [ident|]. apply Forall_cons; [split; [apply wf_num|reflexivity]|]. apply Forall_cons; [split; [apply wf_num|reflexivity]|constructor].
Qed.
Definition sheet_ec : ectx := run_ectx world1 run_config (Some (lit "src/a.yu-c")) (Some (lit "a.c")) process0.
Lemma sheet_page : page sheet_ec [] (IndStr []) untold (pieces true [] main_parts) (lit "a = 16;") untold.
Proof.
  set (q1 := NPlain (raw (lit "left out")) IndFalse false). set (q2 := NPlain (raw (lit "a = ")) IndFalse false). set (q3 := NPlain (raw (lit ";")) IndFalse false).
  assert (E : pieces true [] main_parts = NImportBegin :: NImportBegin :: tree_construct mac_sq :: tree_construct skip_rest :: [q1] ++ NImportEnd :: tree_construct set_side :: tree_construct set_sum :: NImportEnd :: [q2; tree_construct use_n; q3])
    by (vm_compute; reflexivity). rewrite E. clear E.
  apply PG_begin, PG_begin. apply PG_macro; [constructor; [intros []|constructor]|]. cbn [trimmed_next].
  apply PG_skip; [split; [reflexivity|split; [intros [H|[]]; discriminate H|reflexivity]]|apply CO_item; [discriminate|discriminate|constructor]|].
  eapply PG_set; [|apply DF_value, VA_constant, int_constant|].
  { intros [H|[]]; discriminate H. }
  cbn [trimmed_next tree_construct set_sum app].
  eapply PG_set; [| |].
  2: { apply DF_value. eapply VA_builtin with (vs := [NInt 3; NInt 1]).
       - apply AV_more; [apply VA_name; apply at_front|]. apply AV_more; [apply VA_constant, int_constant|apply AV_end].
       - intros [H|[H|[H|[]]]]; discriminate H.
       - apply two_ints' with (f := b_add); [intros imported; reflexivity|intros st; reflexivity]. }
  { intros [H|[]]; discriminate H. }
  cbn [app trimmed_next].
  apply PG_finish. change (lit "a = 16;") with (lit "a = " ++ (lit "16" ++ (lit ";" ++ []))). apply PG_run; [reflexivity|]. cbn [indent_then].
  apply PG_called with (u := lit "16") (fb1 := untold).
  { eapply CA_call with (later := [(lit "n", EValue (NInt 4)); (lit "side", EValue (NInt 3))]) (before := []) (m := lit "sq") (vs := [NInt 4]) (us := [lit "4"]) (u := show_construct four_squared).
    - reflexivity.
    - intros [H|[H|[]]]; discriminate H.
    - reflexivity.
    - intros [H|[]]; discriminate H.
    - apply AV_more; [apply VA_name; apply at_front|apply AV_end].
    - apply Forall2_cons; [apply (FormatSpec.IN_int 4)|apply Forall2_nil].
    - reflexivity.
    - apply FormatCases.turn_of. vm_compute. reflexivity.
    - exact square_sheet.
    - discriminate.
    - apply RP_value with (v := NInt 16); [exact Logic.I| |apply SH_value, (VT_int 16)].
      apply VA_builtin with (vs := [NInt 4; NInt 4]).
      + apply AV_more; [apply VA_constant, int_constant|]. apply AV_more; [apply VA_constant, int_constant|apply AV_end].
      + intros [H|[H|[H|[]]]]; discriminate H.
      + apply two_ints' with (f := b_mul); [intros imported; reflexivity|intros st; reflexivity]. }
  { apply (placed_lines' sheet_ec _ [lit "16"]); [reflexivity|discriminate|reflexivity|reflexivity]. }
  apply PG_run; [reflexivity|]. apply PG_end.
Qed.
Lemma sheet_case : input_key (Some (lit "src/a.yu-c")) = lit "a.yu-c" /\ directories world1 run_config (Some (lit "src/a.yu-c")) = [lit "src"; lit "lib"] /\
  sheet (is_python (Some (lit "a.c"))) (skip_of run_config (is_python (Some (lit "a.c")))) (directories world1 run_config (Some (lit "src/a.yu-c"))) (w_read world1) 2
    [input_key (Some (lit "src/a.yu-c")); lit "<null>"] main_file main_parts [lit "sq.yu"; lit "area.yu"; lit "a.yu-c"; lit "<null>"] /\
  page (run_ectx world1 run_config (Some (lit "src/a.yu-c")) (Some (lit "a.c")) process0) [] (IndStr []) (Feedback None false) (pieces true [] main_parts) (lit "a = 16;") (Feedback None false).
Proof. split; [reflexivity|]. split; [reflexivity|]. split; [apply (main_sheet _ eq_refl)|exact sheet_page]. Qed.
