(** * Whole runs over sources that begin with ($import stdlib) (proofs only) *)
From Coq Require Import List NArith ZArith Bool String Lia ZifyBool ZifyNat ZifyN.
From Verif Require Import PyStr PyStrFacts Ast Lex LexSpec LexFacts LexFacts2 LexCases Parse ParseSpec ParseFacts3 PpFacts HeaderFacts Final Shell ShellSpec Eval Builtin Builtin2 EnvSpec EvalSpec EvalFacts TrimSpec DefFacts CodecFacts Pp PpSpec PpCases ProtectCases ExprSpec DocSpec ExprCases CoreSpec CoreFacts RunSpec RunFacts RunFacts2 RunCases SheetSpec SheetFacts StdParse Eg StdSpec StdFacts.
Import ListNotations.
Open Scope list_scope.
Open Scope N_scope.

Lemma library_run w top trim reduce dirs passage h d g g' t u x kn' out fb input output uniq p :
  let w' := with_library top input w in let cfg := library_config trim reduce dirs passage in
  unified t (import_text g (lit "stdlib") g' ++ u) -> Forall white g -> Forall white g' ->
  library_file (w_read w) (directories w' cfg input) (lit "stdlib.yu") p (lit stdlib_yu) ->
  sheet false SkipNone (directories w' cfg input) (w_read w) h [lit "stdlib.yu"; input_key input; lit "<null>"] u x kn' -> (h <= S d)%nat ->
  is_python output = false -> input_key input <> lit "<null>" -> input_key input <> lit "stdlib.yu" ->
  page (run_ectx w' cfg input output (Proc [] uniq)) (library_defs top) (IndStr []) untold (pieces false [] x) out fb ->
  exists n0, forall n, (n0 <= n)%nat -> pp w' cfg (S (S d)) n t input output (Proc [] uniq) = Ok (yielded cfg (lib_text trim ++ out) fb).
Proof.
  intros w' cfg Hu Wg Wg' Lf Hx Hh Hpy Hi1 Hi2 Hp. assert (Et : unify_eol t = import_text g (lit "stdlib") g' ++ u) by (eapply unified_fun; [apply unify_eol_unified|exact Hu]).
  set (pr := Proc [] uniq) in *. set (cx := run_ctx w' cfg input output). set (s0 := run_start t input output pr).
  assert (Ecx : cx = Ctx false SkipNone (input_key input) (directories w' cfg input) (w_read w) (w_unq w) (w_pyimport w) (w_evalimport w) (w_str w)).
  { unfold cx, run_ctx. rewrite Hpy. reflexivity. }
  set (s1 := set_source (dict_set (lit "stdlib.yu") (DPath p, lib_file) (y_source s0)) s0).
  assert (Dm : forall n, dict_mem n (y_source s0) = true <-> n = input_key input \/ n = lit "<null>").
  { intros n. unfold s0, run_start. cbn [y_source]. rewrite dict_mem_set'. destruct (teqb_spec n (input_key input)) as [->|Hn]; cbn [orb]; [tauto|].
    unfold dict_mem. cbn [dict_get]. unfold source_empty. destruct (teqb_spec (lit "<null>") n) as [<-|Hn2].
    - split; auto.
    - destruct (teqb_spec n (lit "<null>")) as [->|_]; [congruence|]. split; [discriminate|intros [E|E]; congruence]. }
  assert (Ln : lit "stdlib.yu" <> source_empty) by discriminate.
  assert (Kn : knows cx s1 [lit "stdlib.yu"; input_key input; lit "<null>"]).
  { split; [|split; [right; left; rewrite Ecx; reflexivity|]].
    - intros n. unfold s1. cbn [y_source set_source In]. rewrite dict_mem_set'. destruct (teqb_spec n (lit "stdlib.yu")) as [->|Hn]; cbn [orb]; [tauto|]. rewrite Dm. split; [intros [E|[E|[E|[]]]]; [congruence|left|right]; congruence|intros [E|E]; auto].
    - exists (DPath []). unfold s1. cbn [y_source set_source]. rewrite dict_get_set'. destruct (teqb_spec source_empty (lit "stdlib.yu")) as [E|_]; [congruence|].
      unfold s0, run_start. cbn [y_source]. rewrite dict_get_set'. destruct (teqb_spec source_empty (input_key input)) as [E|_]; [symmetry in E; contradiction|]. reflexivity. }
  assert (Hl : yuparse cx (S d) (library (lit "stdlib")) s1 = Ok (lib_nodes, s1)).
  { rewrite Ecx. apply (library_reads _ _ _ _ _ _ _ d (DPath p)). unfold s1. cbn [y_source set_source]. rewrite dict_get_set', teqb_refl. reflexivity. }
  destruct (parse_after cx h (S d) (input_key input) s0 (match input with Some q => DPath q | None => DNone end) g (lit "stdlib") g' p lib_file lib_nodes s1
              [lit "stdlib.yu"; input_key input; lit "<null>"] u x kn') as (ex & s2 & El & Hex & [x1 Hv]).
  - exact Hh.
  - ident.
  - exact Wg.
  - exact Wg'.
  - destruct (dict_mem (library (lit "stdlib")) (y_source s0)) eqn:E; [|reflexivity]. apply Dm in E as [E|E]; [|discriminate E]. symmetry in E. contradiction (Hi2 E).
  - exists (lit stdlib_yu). rewrite Ecx. split; [exact Lf|]. change lib_file with (unify_eol (lit stdlib_yu)). apply unify_eol_unified.
  - exact Hl.
  - discriminate.
  - rewrite Ecx. exact Hx.
  - exact Kn.
  - left. rewrite Ecx. reflexivity.
  - unfold s0, run_start. cbn [y_source]. rewrite dict_get_set', teqb_refl, Et. reflexivity.
  - assert (Hf : fed s2 = untold) by (rewrite Hv; reflexivity). assert (Hk1 : y_shrink s2 = y_shrink s0) by (rewrite Hv; reflexivity).
    set (ec := run_ectx w' cfg input output pr) in *.
    set (mcx := Ctx false SkipNone [] [] (w_read w) (w_unq w) (w_pyimport w) (w_evalimport w) (w_str w)).
    assert (Eec : ec = ECtx (Ctx false SkipNone (input_key input) (directories w' cfg input) (w_read w) (w_unq w) (w_pyimport w) (w_evalimport w) (w_str w)) trim false passage
              (builtin_with [] (fun _ _ => None) (input_key input) (more_builtins mcx input (library_others (w_rest w)))) (library_names (w_names w)) (library_python top (w_infix w)) (w_float_str w) (w_float_int w) (w_repr w)).
    { unfold ec, run_ectx. fold cx. rewrite Ecx. reflexivity. }
    set (parse := yuparse cx (S (S d))).
    assert (Hen : env_for ec parse (library_defs top) (full_env top)) by (rewrite Eec; apply library_env).
    destruct (page_block ec parse eq_refl (source_parses cx (S d)) _ _ _ _ _ _ Hp ex (full_env top) s2 Hex Hen Hf) as (ws & s' & B1 & B2 & B3 & B4 & B5).
    assert (G : good ec parse (IndStr []) (NImportBegin :: lib_nodes ++ NImportEnd :: ex) [] s2 (lib_text trim ++ out) s').
    { rewrite Eec. apply library_good. exists ws. rewrite <- Eec. split; [exact B1|]. split; [exact B2|exact B3]. }
    destruct G as (wg & G1 & G2 & G3). pose proof (page_raw ec parse eq_refl _ _ _ _ _ _ G1 G2) as Hr. rewrite G3 in Hr.
    assert (Ht : evals ec parse (NText (NImportBegin :: lib_nodes ++ NImportEnd :: ex) 0 0) [] s2 (NRaw (lib_text trim ++ out)) [] s') by (destruct Hr as [n Hr]; exists (S n); exact Hr).
    destruct Ht as [n0 He]. exists n0. intros n Hn. unfold pp. fold cx s0. rewrite El. fold ec parse.
    match goal with |- context [yueval ?a ?b n ?x ?y ?z] => replace (yueval a b n x y z) with (Ok (NRaw (lib_text trim ++ out), @nil frame, s')) end.
    + cbn [output_of str_of option_map final output_text]. unfold yielded. rewrite <- B4, B5, Hk1. reflexivity.
    + symmetry. rewrite (more_budget _ _ n0 n) by (try lia; rewrite He; discriminate). exact He.
Qed.
