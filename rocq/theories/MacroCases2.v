(** * Cases of macros with named arguments *)
From Coq Require Import String List NArith ZArith Bool.
From Verif Require Import PyStr Ast Eval EnvSpec EvalSpec EvalCases FormatSpec FormatFacts FormatCases MacroSpec MacroFacts.
Import ListNotations.
Open Scope list_scope.

Definition named_call : node := NApply (var "m") [NInt 2] [(raw (lit "b"), NAtom (raw (lit "x")))] None 0.
Lemma named_fits : named_evals ec0 echo [(raw (lit "b"), NAtom (raw (lit "x")))] mac_env st0 [(lit "b", NAtom (raw (lit "x")))] mac_env st0 /\
  Forall2 inserts_named [(lit "b", NAtom (raw (lit "x")))] [(lit "b", lit "x")] /\ unnamed [lit "b"] [lit "a"; lit "b"] [lit "a"] /\ loose (lit "x") /\
  substituted ([(lit "b", lit "x")] ++ combine [lit "a"] [lit "2"]) mac_items (lit "2 * (x + 2)").
Proof.
  split; [|split; [|split; [|split]]].
  - apply (NE_cons ec0 echo (raw (lit "b")) (NAtom (raw (lit "x"))) [] mac_env st0 (NAtom (raw (lit "x"))) mac_env st0 [] mac_env st0); [run 2%nat|constructor].
  - constructor; [|constructor]. split; [reflexivity|]. apply (IN_atom (raw (lit "x"))).
  - apply UN_open; [intros [H|[]]; discriminate H|]. apply UN_named; [left; reflexivity|constructor].
  - exact (Forall_inv (Forall_inv_tail (proj2 mac_args))).
  - apply (SU_mark _ _ (lit "2") _ (lit " * (x + 2)")); [apply gives_of; reflexivity|]. apply (SU_lit _ (lit " * (") _ (lit "x + 2)")).
    apply (SU_mark _ _ (lit "x") _ (lit " + 2)")); [apply gives_of; reflexivity|]. apply (SU_lit _ (lit " + ") _ (lit "2)")).
    apply (SU_mark _ _ (lit "2") _ (lit ")")); [apply gives_of; reflexivity|]. apply (SU_lit _ (lit ")") _ []). constructor.
Qed.
Lemma named_runs : exists e' s', evals ec0 echo named_call mac_env st0 (NPlain (raw (lit "2 * (x + 2)")) IndNone false) e' s'.
Proof. do 2 eexists. run 20%nat. Qed.
(** the named ones first *)
Lemma named_first : exists e' s', evals ec0 echo (NApply (var "m") [NStr (raw (lit "($b)"))] [(raw (lit "b"), NAtom (raw (lit "x")))] None 0) mac_env st0
  (NPlain (raw (lit "($b) * (x + ($b))")) IndNone false) e' s'.
Proof. do 2 eexists. run 20%nat. Qed.
