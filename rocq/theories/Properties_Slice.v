(** * Slices with a step (C26, C49) and steady spaces (C28) *)
From Coq Require Import String List NArith ZArith.
From Verif Require Import PyStr Ast Final Eval EvalCases BuiltinSpec TextSpec TextCases MoreCases SliceSpec SliceCases.
Import ListNotations.
Open Scope list_scope.
Open Scope Z_scope.

(** ** C26: lists *)
Theorem C26_stepped_slice ec l args a b s : offers ec (lit "getslice") -> is_term (NList l) = true -> slice_args args a b s -> s <> 0 ->
  exists w, stepped l a b s w /\ call_yields ec (lit "getslice") (NList l :: args) (NList w).
Proof. exact (call_stepped ec l args a b s). Qed.
Print Assumptions C26_stepped_slice.
Theorem C26_one_stepped_slice (A : Type) (l : list A) a b s w w' : stepped l a b s w -> stepped l a b s w' -> w = w'.
Proof. exact (stepped_det l a b s w w'). Qed.
Print Assumptions C26_one_stepped_slice.
Theorem C26_backward_slice ec l x y z : offers ec (lit "getslice") -> is_term (NList l) = true -> choice x None -> choice y None -> int_value z (-1) ->
  call_yields ec (lit "getslice") [NList l; x; y; z] (NList (rev l)).
Proof. exact (call_backward ec l x y z). Qed.
Print Assumptions C26_backward_slice.

(** ** C49: texts *)
Theorem C49_stepped_slice ec x t args a b s : offers ec (lit "getslice") -> string_value x t -> slice_args args a b s -> s <> 0 ->
  exists w, stepped t a b s w /\ call_yields ec (lit "getslice") (x :: args) (NRaw w).
Proof. exact (call_stepped_text ec x t args a b s). Qed.
Print Assumptions C49_stepped_slice.
Example C26_stepped_case :
  call1 "getslice" [NList [NInt 1; NInt 2; NInt 3; NInt 4; NInt 5]; NInt 9; txt ""; NInt (-2)] (NList [NInt 5; NInt 3; NInt 1]) /\
  call1 "getslice" [NList [NInt 1; NInt 2; NInt 3; NInt 4; NInt 5]; NInt 1; NInt (-1); NInt 2] (NList [NInt 2; NInt 4]) /\
  call1 "getslice" [txt "abcdef"; txt ""; NInt 0; NInt (-3)] (NRaw (lit "fc")) /\
  call1 "getslice" [txt "abcdef"; NInt (-2); txt ""] (NRaw (lit "ef")).
Proof. exact slice_cases. Qed.
Example C26_stepped_args : slice_args [NInt 9; txt ""; NInt (-2)] (Some 9) None (-2).
Proof. exact slice_args_case. Qed.
Example C26_stepped_offers : Forall (fun n => offers ec1 (lit n)) ["getslice"; "SPACE"; "TAB"]%string.
Proof. exact slice_offers. Qed.

(** ** C28: what ($SPACE) and ($TAB) leave is not blank while lines are cleaned, and ends as a space and a tab *)
Theorem C28_space ec : offers ec (lit "SPACE") -> exists c, call_yields ec (lit "SPACE") [] (NRaw [c]) /\ py_isspace c = false /\ replace_steady [c] = [32%N].
Proof. exact (call_space ec). Qed.
Print Assumptions C28_space.
Theorem C28_tab ec : offers ec (lit "TAB") -> exists c, call_yields ec (lit "TAB") [] (NRaw [c]) /\ py_isspace c = false /\ replace_steady [c] = [9%N].
Proof. exact (call_tab ec). Qed.
Print Assumptions C28_tab.
