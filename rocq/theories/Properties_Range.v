(** * Ranges of one, two and three arguments: C26 *)
From Coq Require Import List NArith ZArith Bool String.
From Verif Require Import PyStr Ast EnvSpec EvalSpec Eval EvalCases BuiltinSpec RangeCases.
Import ListNotations.
Open Scope list_scope.

(** [range] counts from the first argument, or from 0 when there is only one, up to the end by steps
    of the third, or of 1; from the end on there is nothing, and the empty list when it begins there. *)
Theorem C26_range_any ec parse e e2 s s2 file pos a args vs x y d :
  s_txt a = lit "range" -> standard ec e (s_txt a) -> evals ec parse (NList args) e s (NList vs) e2 s2 -> range_args vs x y d ->
  exists w, counts x y d w /\ evals ec parse (NApply (NVar (RList []) a) args [] file pos) e s (NList w) e2 s2.
Proof. exact (call_range' ec parse e e2 s s2 file pos a args vs x y d). Qed.
Print Assumptions C26_range_any.
(** there is one list that counts so *)
Theorem C26_counts_one x y d w w' : counts x y d w -> counts x y d w' -> w = w'.
Proof. exact (counts_one x y d w w'). Qed.
Print Assumptions C26_counts_one.
Example C26_range_case : standard ec0 [] (lit "range") /\ evals ec0 noparse (call (var "range") [NInt 3]) [] st0 (NList [NInt 0; NInt 1; NInt 2]) [] st0 /\
  evals ec0 noparse (call (var "range") [NInt 4; NInt 6]) [] st0 (NList [NInt 4; NInt 5]) [] st0 /\ evals ec0 noparse (call (var "range") [NInt 6; NInt 4]) [] st0 (NList []) [] st0.
Proof. exact range_case. Qed.
