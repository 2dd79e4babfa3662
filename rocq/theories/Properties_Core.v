(** * Application of functions with arbitrary bodies: C16, C17, C20 *)
From Coq Require Import List NArith ZArith Bool String.
From Verif Require Import PyStr Ast Lex Parse Final Eval Builtin TrimSpec EnvSpec EvalSpec EvalCases ApplyCases CoreSpec CoreCases.
Import ListNotations.
Open Scope list_scope.

(** ** C16: the value of a call is the meaning of the body with the arguments for the parameters *)
Theorem C16_any_body ec parse e0 s0 bd ps dflt E c e s fn args vs named nm bs gs file pos v :
  e_browse ec = false -> declares ec parse e0 s0 bd ps dflt -> NoDup ps -> ps <> [] ->
  evals ec parse (NLambda bd (tree E)) e0 s0 c e0 s0 ->
  evals ec parse fn e s c e s -> evals ec parse (NList args) e s (NList vs) e s -> Forall data vs ->
  named_values ec parse e s named nm -> Forall (fun b => data (snd b)) nm -> Forall (fun b => data (snd b)) dflt ->
  incl (names nm) ps -> binds nm dflt ps vs bs ->
  Forall (constant ps e0 e) gs -> means ec parse (placed ec) (outside ps e0 e) (bs ++ gs) E v ->
  evals ec parse (NApply fn args named file pos) e s v e s.
Proof. exact (any_body ec parse e0 s0 bd ps dflt E c e s fn args vs named nm bs gs file pos v). Qed.
Print Assumptions C16_any_body.
Example C16_any_body_case :
  declares ec2 noparse body_env st0 body_pars fn_ps [(lit "c", NInt 9)] /\
  data va /\ binds [] [(lit "c", NInt 9)] fn_ps [va; NInt 3] body_bs /\
  Forall (constant fn_ps body_env body_env) body_gs /\
  means ec2 noparse (placed ec2) (outside fn_ps body_env body_env) (body_bs ++ body_gs) body body_value /\
  evals ec2 noparse (NApply (NLambda body_pars (tree body)) [va; NInt 3] [] None 0) body_env st0 body_value body_env st0.
Proof. exact (conj body_declares (conj va_data (conj body_binds (conj body_constants (conj body_means body_case))))). Qed.

(** a call with the first arguments gives a function of the others *)
Theorem C16_any_body_in_steps ec parse e0 s0 bd ps1 p ps2 dflt E c e s fn args1 vs1 args2 vs2 bs gs file1 pos1 file2 pos2 v :
  e_browse ec = false -> declares ec parse e0 s0 bd (ps1 ++ p :: ps2) dflt -> NoDup (ps1 ++ p :: ps2) ->
  evals ec parse (NLambda bd (tree E)) e0 s0 c e0 s0 ->
  evals ec parse fn e s c e s -> evals ec parse (NList args1) e s (NList vs1) e s -> Forall data vs1 ->
  evals ec parse (NList args2) e s (NList vs2) e s -> Forall data vs2 -> Forall (fun b => data (snd b)) dflt ->
  List.length vs1 = List.length ps1 -> ~ In (lit "__va_args__") ps1 -> ~ In p (names dflt) ->
  binds [] dflt (p :: ps2) vs2 bs ->
  Forall (constant (ps1 ++ p :: ps2) e0 e) gs ->
  means ec parse (placed ec) (outside (ps1 ++ p :: ps2) e0 e) ((combine ps1 vs1 ++ bs) ++ gs) E v ->
  exists c1, evals ec parse (NApply fn args1 [] file1 pos1) e s c1 e s /\
    forall fn2, evals ec parse fn2 e s c1 e s -> evals ec parse (NApply fn2 args2 [] file2 pos2) e s v e s.
Proof. exact (any_body_curried ec parse e0 s0 bd ps1 p ps2 dflt E c e s fn args1 vs1 args2 vs2 bs gs file1 pos1 file2 pos2 v). Qed.
Print Assumptions C16_any_body_in_steps.
Example C16_any_body_in_steps_case : evals ec2 noparse
  (NApply (NApply (NLambda body_pars (tree body)) [va] [] None 0) [NInt 3] [] None 0) body_env st0 body_value body_env st0.
Proof. exact body_in_steps_case. Qed.

(** the definition of a function whose body has a meaning for some arguments succeeds *)
Theorem C16_definition_succeeds ec parse e0 s0 bd ps dflt E bs gs v e :
  e_browse ec = false -> declares ec parse e0 s0 bd ps dflt -> NoDup ps -> ps <> [] ->
  names bs = ps -> Forall (fun b => data (snd b)) bs ->
  Forall (constant ps e0 e) gs -> means ec parse (placed ec) (outside ps e0 e) (bs ++ gs) E v ->
  exists c, evals ec parse (NLambda bd (tree E)) e0 s0 c e0 s0.
Proof. exact (any_body_defined ec parse e0 s0 bd ps dflt E bs gs v e). Qed.
Print Assumptions C16_definition_succeeds.

(** an argument that is a parameter of the calling function is taken for the parameter of the
    called function that has the same name: with y = 7, [g y 2] is not [g 7 2] *)
Theorem C16_capture_refuted :
  evals ec0 noparse (NApply (pair_of "x" "y") [NInt 7; NInt 2] [] None 0) [] st0 (NList [NInt 7; NInt 2]) [] st0 /\
  evals ec0 noparse (NApply (NLambda [par "y"] (NApply (pair_of "x" "y") [var "y"; NInt 2] [] None 0)) [NInt 7] [] None 0) [] st0
    (NList [NInt 2; NInt 2]) [] st0 /\
  evals ec0 noparse (NApply (NLambda [par "y"] (NApply (pair_of "x" "z") [var "y"; NInt 2] [] None 0)) [NInt 7] [] None 0) [] st0
    (NList [NInt 7; NInt 2]) [] st0.
Proof. exact capture_case. Qed.
Print Assumptions C16_capture_refuted.

(** a function called by another function loses its parameter in a conditional inside a conditional,
    although the names are different: with [g] = \p.(p ? (p ? p : 0) : 0) and [f] = \x.($g x)
    the value of [f 7] is the name p *)
Theorem C16_nested_conditional_refuted :
  evals ec0 noparse (NApply (nested "p") [NInt 7] [] None 0) [] st0 (NInt 7) [] st0 /\
  evals ec0 noparse (NApply (NLambda [par "x"] (NApply (nested "p") [var "x"] [] None 0)) [NInt 7] [] None 0) [] st0 (NAtom (name0 "p")) [] st0.
Proof. exact nested_case. Qed.
Print Assumptions C16_nested_conditional_refuted.

(** ** C17: a text with arbitrary expressions in it *)
Theorem C17_any_template ec parse e0 s0 bd ps dflt l sq q c e s fn args vs named nm bs gs file pos t :
  e_browse ec = false -> declares ec parse e0 s0 bd ps dflt -> NoDup ps -> ps <> [] ->
  evals ec parse (NLambda bd (NText (map tree l) sq q)) e0 s0 c e0 s0 ->
  evals ec parse fn e s c e s -> evals ec parse (NList args) e s (NList vs) e s -> Forall data vs ->
  named_values ec parse e s named nm -> Forall (fun b => data (snd b)) nm -> Forall (fun b => data (snd b)) dflt ->
  incl (names nm) ps -> binds nm dflt ps vs bs ->
  Forall (constant ps e0 e) gs ->
  means ec parse (placed ec) (outside ps e0 e) (bs ++ gs) (CText l sq q) (NRaw t) ->
  evals ec parse (NApply fn args named file pos) e s (NRaw t) e s.
Proof. exact (any_body ec parse e0 s0 bd ps dflt (CText l sq q) c e s fn args vs named nm bs gs file pos (NRaw t)). Qed.
Print Assumptions C17_any_template.

(** ** C20: in a function the branch that is not chosen is evaluated, depending on the order of the parameters *)
Theorem C20_unchosen_branch_refuted :
  finishes ec0 noparse (NApply (NLambda [par "a"; par "b"] guarded) [NInt 5; NInt 0] [] None 0) [] st0
    (Err (Exn TypeError "python: argument")) /\
  evals ec0 noparse (NApply (NLambda [par "b"; par "a"] guarded) [NInt 0; NInt 5] [] None 0) [] st0 (NInt 5) [] st0 /\
  evals ec0 noparse guarded [[(lit "a", NInt 5); (lit "b", NInt 0)]] st0 (NInt 5) [[(lit "a", NInt 5); (lit "b", NInt 0)]] st0.
Proof. exact unchosen_case. Qed.
Print Assumptions C20_unchosen_branch_refuted.
