(** Runs with the standard library and the name of the source (proofs only). *)
From Coq Require Import List NArith ZArith Bool String.
From Verif Require Import PyStr LexSpec Ast Final Shell ShellSpec EnvSpec EvalSpec Eval Parse ParseSpec PpSpec Pp PpCases CoreSpec RunSpec SheetSpec Eg StdSpec StdRun StdCases NameSpec NameCases ConfSpec ReadFacts ReadCases.
Import ListNotations.
Open Scope list_scope.
Open Scope N_scope.

Lemma read_library_run w top trim reduce dirs passage h d g g' t u x kn' out fb input output uniq p key all :
  let w' := with_library top input w in let cfg := library_config trim reduce dirs passage in
  language_of output false -> source_named input key -> searched dirs (w_lib w) input all ->
  unified t (import_text g (lit "stdlib") g' ++ u) -> Forall white g -> Forall white g' ->
  library_file (w_read w) all (lit "stdlib.yu") p (lit stdlib_yu) ->
  sheet false SkipNone all (w_read w) h [lit "stdlib.yu"; key; lit "<null>"] u x kn' -> (h <= S d)%nat ->
  key <> lit "<null>" -> key <> lit "stdlib.yu" ->
  page (run_ectx w' cfg input output (Proc [] uniq)) (library_defs top) (IndStr []) (Feedback None false) (pieces false [] x) out fb ->
  exists n0, forall n, (n0 <= n)%nat -> pp w' cfg (S (S d)) n t input output (Proc [] uniq) =
    Ok (PP true (replace_steady (reduce_emptiness reduce ((if trim then [] else repeat 10 47) ++ out))) None (f_output fb) (f_repeat fb) 0).
Proof.
  intros w' cfg HL HK HD. apply language_is in HL. apply named_is in HK.
  change (searched (k_dirs cfg) (w_lib w') input all) in HD. apply searched_is in HD. subst key all.
  intros U G1 G2 L S H K1 K2 P. exact (library_run w top trim reduce dirs passage h d g g' t u x kn' out fb input output uniq p U G1 G2 L S H HL K1 K2 P).
Qed.
Lemma lib_language : language_of lib_output false.
Proof. exact c_output. Qed.
Lemma lib_found' : source_named lib_input (lit "a.yu-c") /\ searched [] (w_lib lib_world) lib_input [[]; lit "lib"] /\
  library_file (w_read lib_world) [[]; lit "lib"] (lit "stdlib.yu") (lit "lib/stdlib.yu") (lit stdlib_yu).
Proof.
  split; [exact c_input|]. split; [|exact (proj2 lib_found)].
  apply (SD_file [] (lit "lib") (lit "a.yu-c") []); [discriminate|]. constructor. apply no_slash. reflexivity.
Qed.
Lemma named_file w cfg input output pr parse a e s file pos key : source_named input key ->
  s_txt a = lit "__FILE__" -> unknown e (s_txt a) -> (forall im, w_scripts w im (s_txt a) = None) ->
  not_configured (k_define cfg) (s_txt a) -> dict_get (s_txt a) (pr_defines pr) = None ->
  evals (run_ectx w cfg input output pr) parse (NApply (NVar (RList []) a) [] [] file pos) e s (NRaw (34%N :: key ++ [34%N])) e s.
Proof. intros H. apply named_is in H. subst key. exact (run_file w cfg input output pr parse a e s file pos). Qed.
