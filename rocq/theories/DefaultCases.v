(** * Functions of texts with arguments left out (proofs only) *)
From Coq Require Import List NArith ZArith Bool String Lia ZifyBool ZifyNat ZifyN.
From Verif Require Import PyStr Ast Lex Parse Final Eval Builtin Builtin2 PyStrFacts LexSpec NumFacts EnvSpec EnvFacts EvalSpec EvalMono EvalKeep EvalPure EvalFacts EvalFacts2 EvalFacts3 EvalFacts4 EvalCases BuiltinSpec BuiltinFacts TextSpec TextFacts.
From Verif Require Import TextCases.
Import ListNotations.
Open Scope list_scope.

Section Calls.
Variable ec : ectx.
Lemma just_default x t w n : offers ec (lit "ljust") -> offers ec (lit "rjust") -> string_value x t -> int_value w n ->
  exists pad, padding 32 t n pad /\ call_yields ec (lit "ljust") [x; w] (NRaw (t ++ pad)) /\ call_yields ec (lit "rjust") [x; w] (NRaw (pad ++ t)).
Proof.
  unfold string_value. intros H1 H2 Hx Hw. exists (repeat 32%N (Z.to_nat n - List.length t)). split; [apply repeat_padding|]. destruct (int_value_of w n Hw) as [Iw Tw]. split.
  - apply (call_offered ec _ b_ljust _ (NRaw (t ++ repeat 32%N (Z.to_nat n - List.length t))) H1); [reflexivity|cbn [is_term forallb]; rewrite (string_term x t Hx), Tw; reflexivity|].
    intros st. unfold b_ljust, b_just, on_text. rewrite Hx, Iw. reflexivity.
  - apply (call_offered ec _ b_rjust _ (NRaw (repeat 32%N (Z.to_nat n - List.length t) ++ t)) H2); [reflexivity|cbn [is_term forallb]; rewrite (string_term x t Hx), Tw; reflexivity|].
    intros st. unfold b_rjust, b_just, on_text. rewrite Hx, Iw. reflexivity.
Qed.
Lemma join_default l ts : offers ec (lit "join") -> Forall2 string_value l ts -> exists t, joined [32%N] ts t /\ call_yields ec (lit "join") [NList l] (NRaw t).
Proof.
  unfold string_value. intros Ho Hl. exists (join [32%N] ts). split; [apply joined_join|].
  apply (call_offered ec _ b_join _ (NRaw (join [32%N] ts)) Ho); [reflexivity| |].
  - cbn [is_term forallb]. rewrite (strings_term l ts Hl). reflexivity.
  - intros st. unfold b_join. cbn [py_iter list_of]. rewrite (texts_of_list l ts Hl). reflexivity.
Qed.
End Calls.
Lemma default_case : call1 "join" [NList [txt "a"; txt "b"]] (NRaw (lit "a b")) /\ call1 "rjust" [txt "ab"; NInt 4] (NRaw (lit "  ab")) /\ call1 "ljust" [txt "ab"; NInt 4] (NRaw (lit "ab  ")).
Proof. unfold call1. repeat split; run 9%nat. Qed.
