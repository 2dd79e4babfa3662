(** * Locations and AST dumps

    Statements only; each proof is one lemma of the facts files. *)
From Coq Require Import List NArith ZArith.
From Verif Require Import PyStr Ast Loc LocSpec LocFacts LocCases PlaceFacts.
Import ListNotations.
Open Scope N_scope.

(** ** C32: beautifying only adds white space *)
Theorem C32_only_space_added : forall st, padded st (ast_pretty st).
Proof. exact ast_pretty_padded. Qed.
Print Assumptions C32_only_space_added.

Example C32_case : ast_pretty (lit "f(a)b") = lit "f(a)" ++ [10] ++ lit "b" /\ padded (lit "f(a)b") (lit "f(a)" ++ [10] ++ lit "b").
Proof. exact pretty_case. Qed.

(** ** C44: the reported line *)
Theorem C44_line_number : forall sou pos pre line post,
  in_line sou pos pre line post -> only_lf sou -> line <> [] ->
  loc_line sou pos = S (line_feeds pre).
Proof. exact loc_line_ok. Qed.
Print Assumptions C44_line_number.

Theorem C44_caret : forall sou pos pre line post c,
  in_line sou pos pre line post -> only_lf sou ->
  nth_error line (pos - length pre) = Some c ->
  (length line - length (lstrip line) <= pos - length pre)%nat ->
  (0 <= loc_caret sou pos)%Z /\
  nth_error (loc_text sou pos) (Z.to_nat (loc_caret sou pos)) = Some c.
Proof. exact loc_caret_ok. Qed.
Print Assumptions C44_caret.

(** A position on an empty line is reported one line too early. *)
Theorem C44_empty_line_refuted : exists sou pos pre line post,
  in_line sou pos pre line post /\ only_lf sou /\ loc_line sou pos <> S (line_feeds pre).
Proof. exact loc_line_empty. Qed.
Print Assumptions C44_empty_line_refuted.

Example C44_case :
  let sou := lit "one" ++ [10] ++ lit "  two" ++ [10] ++ lit "three" in
  in_line sou 7 (lit "one" ++ [10]) (lit "  two") (10 :: lit "three") /\ only_lf sou /\
  loc_line sou 7 = 2%nat /\ loc_caret sou 7 = 1%Z.
Proof. exact loc_case. Qed.

(** An error in a text that a macro has made names the places of the call, then those of the
    macro, then the line in the text of the macro, however deep macros call macros. *)
Theorem C44_places source calls f pos l : places source calls f pos l ->
  exists n0, forall n, (n0 <= n)%nat -> loc_chain n source calls f pos = Some l.
Proof. exact (chain_places source calls f pos l). Qed.
Print Assumptions C44_places.
Example C44_places_case : place_main = lit "($macro m (a) x" ++ 10 :: lit "y)" ++ 10 :: lit "  ($m 1)" /\
  places place_source place_calls (lit "0") 2 [LFile (lit "src/a.yu") 3; LFile (lit "src/a.yu") 1; LMacro (lit "m") 2].
Proof. exact (conj eq_refl place_case). Qed.
