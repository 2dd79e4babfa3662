(** * Functions of texts with arguments left out: C49 *)
From Coq Require Import List NArith ZArith Bool String.
From Verif Require Import PyStr Ast Eval Builtin Builtin2 LexSpec EnvSpec EvalSpec EvalCases BuiltinSpec TextSpec TextCases MoreSpec MoreCases.
From Verif Require Import DefaultCases.
Import ListNotations.
Open Scope list_scope.

(** Without a third argument a text is filled up with spaces *)
Theorem C49_pad_default ec x t w n : offers ec (lit "ljust") -> offers ec (lit "rjust") -> string_value x t -> int_value w n ->
  exists pad, padding 32 t n pad /\ call_yields ec (lit "ljust") [x; w] (NRaw (t ++ pad)) /\ call_yields ec (lit "rjust") [x; w] (NRaw (pad ++ t)).
Proof. exact (just_default ec x t w n). Qed.
Print Assumptions C49_pad_default.
(** Without a second argument texts are joined with spaces between them *)
Theorem C49_join_default ec l ts : offers ec (lit "join") -> Forall2 string_value l ts -> exists t, joined [32%N] ts t /\ call_yields ec (lit "join") [NList l] (NRaw t).
Proof. exact (join_default ec l ts). Qed.
Print Assumptions C49_join_default.
Example C49_default_case : call1 "join" [NList [txt "a"; txt "b"]] (NRaw (lit "a b")) /\ call1 "rjust" [txt "ab"; NInt 4] (NRaw (lit "  ab")) /\ call1 "ljust" [txt "ab"; NInt 4] (NRaw (lit "ab  ")).
Proof. exact default_case. Qed.
