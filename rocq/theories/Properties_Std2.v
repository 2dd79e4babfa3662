(** * Statements of C made by the standard library: C61 *)
From Coq Require Import List NArith ZArith Bool String.
From Verif Require FormatSpec TextSpec.
From Verif Require Import PyStr LexSpec Ast Final Shell ShellSpec EnvSpec EvalSpec Eval Parse ParseSpec PpSpec Pp PpCases ExprSpec CoreSpec RunSpec SheetSpec Eg StdSpec StdRun StdCases StdCases2.
Import ListNotations.
Open Scope list_scope.
Open Scope N_scope.

(** ($do s) is s between do { and } while ( 0 ): the statements [b], of contents [c], are read as a
    source between these lines, and the whole follows the indentation of the call. *)
Theorem C61_do ec top later r a x val b c u ind w fb fb1 rest t fb' : s_txt a = lit "do" -> ~ In (lit "do") (names later) ->
  c_python (e_parse ec) = false -> c_skip (e_parse ec) = SkipNone ->
  value ec (InText (later ++ library_defs top)) x val -> FormatSpec.inserts val b -> document false SkipNone b c ->
  Forall (fun z => ~ a_definition z) (runs true (lit "do {" ++ [10]) (c ++ map inl ([10] ++ lit "} while ( 0 )"))) ->
  page ec (later ++ library_defs top) (IndStr []) fb (runs true (lit "do {" ++ [10]) (c ++ map inl ([10] ++ lit "} while ( 0 )"))) u fb1 -> placed ec (ind_text ind) u w ->
  page ec (later ++ library_defs top) IndFalse fb1 rest t fb' -> page ec (later ++ library_defs top) ind fb (NApply (NVar r a) [x] [] None 0 :: rest) (w ++ t) fb'.
Proof. exact (use_do ec top later r a x val b c u ind w fb fb1 rest t fb'). Qed.
Print Assumptions C61_do.
Example C61_do_case : document false SkipNone do_body do_parts /\ Forall (fun z => ~ a_definition z) do_pieces /\
  page lib_ec (library_defs lib_top) (IndStr []) (Feedback None false) do_pieces do_text (Feedback None false) /\ placed lib_ec (ind_text (IndStr [])) do_text do_text /\
  pp (with_library lib_top lib_input lib_world) lib_config 3 60 (lit "($import stdlib)($do (`" ++ do_body ++ lit "))") lib_input lib_output process0 = Ok (PP true do_text None None false 0).
Proof. exact do_case. Qed.

(** ($foo s) is s between ({ and }) *)
Theorem C61_foo ec top later r a x val b c u ind w fb fb1 rest t fb' : s_txt a = lit "foo" -> ~ In (lit "foo") (names later) ->
  c_python (e_parse ec) = false -> c_skip (e_parse ec) = SkipNone ->
  value ec (InText (later ++ library_defs top)) x val -> FormatSpec.inserts val b -> document false SkipNone b c ->
  Forall (fun z => ~ a_definition z) (runs true (lit "({" ++ [10]) (c ++ map inl ([10] ++ lit "})"))) ->
  page ec (later ++ library_defs top) (IndStr []) fb (runs true (lit "({" ++ [10]) (c ++ map inl ([10] ++ lit "})"))) u fb1 -> placed ec (ind_text ind) u w ->
  page ec (later ++ library_defs top) IndFalse fb1 rest t fb' -> page ec (later ++ library_defs top) ind fb (NApply (NVar r a) [x] [] None 0 :: rest) (w ++ t) fb'.
Proof. exact (use_foo ec top later r a x val b c u ind w fb fb1 rest t fb'). Qed.
Print Assumptions C61_foo.
Example C61_foo_case : document false SkipNone do_body do_parts /\ Forall (fun z => ~ a_definition z) foo_pieces /\
  page lib_ec (library_defs lib_top) (IndStr []) (Feedback None false) foo_pieces foo_text (Feedback None false) /\ placed lib_ec (ind_text (IndStr [])) foo_text foo_text /\
  pp (with_library lib_top lib_input lib_world) lib_config 3 60 (lit "($import stdlib)($foo (`" ++ do_body ++ lit "))") lib_input lib_output process0 = Ok (PP true foo_text None None false 0).
Proof. exact foo_case. Qed.
