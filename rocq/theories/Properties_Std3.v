(** * Conditional definitions made by the standard library: C61 *)
From Coq Require Import List NArith ZArith Bool String.
From Verif Require FormatSpec TextSpec.
From Verif Require Import PyStr LexSpec Ast Final Shell ShellSpec EnvSpec EvalSpec Eval Parse ParseSpec PpSpec Pp PpCases ExprSpec CoreSpec RunSpec SheetSpec Eg StdSpec StdRun StdCases StdCases3.
Import ListNotations.
Open Scope list_scope.
Open Scope N_scope.

(** ($def-if c N) at the start of a line leaves #define N and makes N 1 if the condition is true; it leaves
    nothing and makes N 0 if not.  The text of the first argument is the condition [e], a number or a name. *)
Theorem C61_def_if ec top later r a x y val val' e n vc z fb rest t fb' : s_txt a = lit "def-if" ->
  c_python (e_parse ec) = false -> c_skip (e_parse ec) = SkipNone -> TextSpec.offers ec (lit "unq") ->
  ~ In (lit "def-if") (names later) -> ~ In (lit "if") (names later) -> ~ In (lit "unq") (names later) ->
  wf false SkipNone e -> is_former e = true -> Forall (fun c => c <> 40) (show e) -> identifier n -> n <> lit "if" -> n <> lit "unq" -> n <> lit "__OUTPUT_FILE__" ->
  value ec (InText (later ++ library_defs top)) x val -> FormatSpec.inserts val (show e) ->
  value ec (InText (later ++ library_defs top)) y val' -> FormatSpec.inserts val' n ->
  value ec (InText ((n, EOpen) :: later ++ library_defs top)) (ExprSpec.tree e) vc -> selects vc (NInt 1) (NInt 0) (NInt z) ->
  page ec ((n, EValue (NInt z)) :: later ++ library_defs top) IndFalse fb rest t fb' ->
  page ec (later ++ library_defs top) (IndStr []) fb (NApply (NVar r a) [x; y] [] None 0 :: rest)
    ((if e_trim ec then [] else [10]) ++ (if (z =? 0)%Z then [] else lit "#define " ++ n) ++ t) fb'.
Proof. exact (use_def_if ec top later r a x y val val' e n vc z fb rest t fb'). Qed.
Print Assumptions C61_def_if.
Example C61_def_if_case : let g := (lit "A", EValue (NInt 3)) :: library_defs lib_top in
  value lib_ec (InText g) (NVar (RList []) (raw (lit "A"))) (NInt 3) /\ FormatSpec.inserts (NInt 3) (show (ENum 3)) /\
  value lib_ec (InText g) (NVar (RList []) (raw (lit "B"))) (NAtom (raw (lit "B"))) /\ FormatSpec.inserts (NAtom (raw (lit "B"))) (lit "B") /\
  value lib_ec (InText ((lit "B", EOpen) :: g)) (ExprSpec.tree (ENum 3)) (NInt 3) /\ selects (NInt 3) (NInt 1) (NInt 0) (NInt 1) /\
  wf false SkipNone (ENum 3) /\ is_former (ENum 3) = true /\ Forall (fun c => c <> 40) (show (ENum 3)) /\
  run_of (lit "($import stdlib)($set A 3)($def-if A B).($B)") = Ok (PP true (lit "#define B.1") None None false 0) /\
  run_of (lit "($import stdlib)($set A 0)($def-if A B).($B)") = Ok (PP true (lit ".0") None None false 0).
Proof. exact def_if_case. Qed.
(** A condition that is not defined counts as true: so ($skip-if-not A) skips if A is 0, but not if A is not defined (a finding) *)
Theorem C61_undefined_is_false_refuted : run_of (lit "($import stdlib)($def-if A B)") = Ok (PP true (lit "#define B") None None false 0) /\
  run_of (lit "($import stdlib)a($skip-if-not A)b") = Ok (PP true (lit "ab") None None false 0) /\
  run_of (lit "($import stdlib)($set A 0)a($skip-if-not A)b") = Ok (PP true (lit "a") None None false 0).
Proof. exact def_if_open. Qed.
Print Assumptions C61_undefined_is_false_refuted.
(** ($def B) and ($undef B) work alone, but not one behind the other: the value of B takes the place of its name
    and the run fails (a finding); the name has to be quoted *)
Theorem C61_undef_behind_def_refuted : run_of (lit "($import stdlib)($def B)") = Ok (PP true (lit "#define B") None None false 0) /\
  run_of (lit "($import stdlib)($undef B)") = Ok (PP true (lit "#undef  B") None None false 0) /\
  run_of (lit "($import stdlib)($def B)($undef (`B))") = Ok (PP true (lit "#define B" ++ 10 :: lit "#undef  B") None None false 0) /\
  run_of (lit "($import stdlib)($def B)($undef B)") = Ok (PP false [] None None false 0).
Proof. exact undef_defined. Qed.
Print Assumptions C61_undef_behind_def_refuted.
