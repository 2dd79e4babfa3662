(** * Properties: an expression as an argument (late-bound parameters) *)
From Coq Require Import List NArith ZArith Bool String.
From Verif Require Import PyStr Ast Eval EnvSpec EvalSpec EvalCases CoreSpec CoreCases LateSpec LateCases.
Import ListNotations.
Open Scope list_scope.

(** ** C16: [\k1\k2..\p.(($p a b) ($p c d) ...)] applied to an expression with [&k1] and [&k2] in it
    computes the expression once for every call of [p], with the arguments of that call, in order,
    as the values of the names, and everything else as it is where the function is called *)
Theorem C16_late_bound ec parse p ks e s gs E rows vs e0 s0 :
  e_browse ec = false -> ks <> [] -> NoDup (map s_txt ks) -> ~ In (s_txt p) (map s_txt ks) -> ~ In (lit "__va_args__") (map s_txt ks) ->
  s_txt p <> lit "..." -> s_txt p <> lit "__va_args__" ->
  Forall (unknown e) (map s_txt ks) -> Forall (given_there (s_txt p) (map s_txt ks) e) gs -> only_late ec parse (map s_txt ks) E ->
  rows <> [] -> Forall (fun row => List.length row = List.length ks /\ Forall data row) rows ->
  Forall2 (fun row v => means ec parse (placed ec) (nowhere (s_txt p) (map s_txt ks) e) (combine (map s_txt ks) row ++ gs) E v) rows vs ->
  exists c, evals ec parse (for_rows ks p rows) e0 s0 c e0 s0 /\
    forall fn file pos, evals ec parse fn e s c e s -> evals ec parse (NApply fn [tree E] [] file pos) e s (NList vs) e s.
Proof. exact (late_bound ec parse p ks e s gs E rows vs e0 s0). Qed.
Print Assumptions C16_late_bound.
Example C16_late_bound_case :
  NoDup (map s_txt late_ks) /\ Forall (unknown late_env) (map s_txt late_ks) /\
  Forall (given_there (lit "p") (map s_txt late_ks) late_env) [(lit "g", NInt 10)] /\ only_late ec2 noparse (map s_txt late_ks) late_arg /\
  Forall (fun row => List.length row = List.length late_ks /\ Forall data row) late_rows /\
  Forall2 (fun row v => means ec2 noparse (placed ec2) (nowhere (lit "p") (map s_txt late_ks) late_env) (combine (map s_txt late_ks) row ++ [(lit "g", NInt 10)]) late_arg v) late_rows late_values.
Proof. exact late_hypotheses. Qed.
Example C16_late_bound_value :
  evals ec2 noparse (NApply (for_rows late_ks (raw (lit "p")) late_rows) [tree late_arg] [] None 0) late_env st0 (NList late_values) late_env st0.
Proof. exact late_case. Qed.
(** without [&] the name is not bound: it stays a name *)
Example C16_late_bound_plain :
  evals ec2 noparse (NApply (for_rows late_ks (raw (lit "p")) late_rows) [NList [NVar (RList []) (raw (lit "k")); NVar RLate (raw (lit "k"))]] [] None 0) late_env st0
    (NList [NList [NAtom (raw (lit "k")); va]; NList [NAtom (raw (lit "k")); NList []]]) late_env st0.
Proof. exact plain_case. Qed.
