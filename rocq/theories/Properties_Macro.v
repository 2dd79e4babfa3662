(** * Macros with named arguments

    Statements only; each proof is one lemma of the facts files. *)
From Coq Require Import String List NArith ZArith.
From Verif Require Import PyStr Ast Eval EnvSpec EvalSpec EvalCases FormatSpec FormatCases MacroSpec MacroFacts MacroCases2.
Import ListNotations.
Open Scope list_scope.

(** ** C24: arguments given by name *)
(** A parameter that is named gets the text of its argument, the others get those of the
    arguments without a name, in order; the places are replaced all at once if no text could
    make another place. *)
Theorem C24_named_arguments_partial ec parse fn args named file pos e s items ps q d c0 e1 s1 vs us e2 s2 nm nu e3 s3 out :
  evals ec parse fn e s (NMClosure (written items) (map (fun p => (p, NBound)) ps) d c0) e1 s1 ->
  evals ec parse (NList args) e1 s1 (NList vs) e2 s2 -> Forall2 inserts vs us ->
  named_evals ec parse named e2 s2 nm e3 s3 -> Forall2 inserts_named nm nu -> NoDup (names nm) -> incl (names nm) ps ->
  unnamed (names nm) ps q -> List.length vs = List.length q ->
  NoDup ps -> ~ In (lit "__va_args__") ps -> readable items -> Forall (fun p => ~ In 41%N p) ps -> Forall loose us -> Forall (fun b => loose (snd b)) nu ->
  substituted (nu ++ combine q us) items out ->
  exists call, forall r, finishes ec parse (NApply fn args named file pos) e s r <-> finishes ec parse (NEval (NRaw out) d call) e3 s3 r.
Proof. exact (named_expands ec parse fn args named file pos e s items ps q d c0 e1 s1 vs us e2 s2 nm nu e3 s3 out). Qed.
Print Assumptions C24_named_arguments_partial.
Example C24_named_case : evals ec0 echo (var "m") mac_env st0 mac_closure mac_env st0 /\
  (named_evals ec0 echo [(raw (lit "b"), NAtom (raw (lit "x")))] mac_env st0 [(lit "b", NAtom (raw (lit "x")))] mac_env st0 /\
   Forall2 inserts_named [(lit "b", NAtom (raw (lit "x")))] [(lit "b", lit "x")] /\ unnamed [lit "b"] [lit "a"; lit "b"] [lit "a"] /\ loose (lit "x") /\
   substituted ([(lit "b", lit "x")] ++ combine [lit "a"] [lit "2"]) mac_items (lit "2 * (x + 2)")) /\
  exists e' s', evals ec0 echo named_call mac_env st0 (NPlain (raw (lit "2 * (x + 2)")) IndNone false) e' s'.
Proof. exact (conj mac_fn (conj named_fits named_runs)). Qed.

(** In general one parameter is replaced after the other: the named ones in the order of the
    call, then the others. *)
Theorem C24_named_one_after_the_other ec parse fn args named file pos e s body ps q d c0 e1 s1 vs us e2 s2 nm nu e3 s3 out :
  evals ec parse fn e s (NMClosure body (map (fun p => (p, NBound)) ps) d c0) e1 s1 ->
  evals ec parse (NList args) e1 s1 (NList vs) e2 s2 -> Forall2 inserts vs us ->
  named_evals ec parse named e2 s2 nm e3 s3 -> Forall2 inserts_named nm nu -> NoDup (names nm) -> incl (names nm) ps ->
  unnamed (names nm) ps q -> List.length vs = List.length q ->
  NoDup ps -> ~ In (lit "__va_args__") ps -> replaced_in_turn (nu ++ combine q us) body out ->
  exists call, forall r, finishes ec parse (NApply fn args named file pos) e s r <-> finishes ec parse (NEval (NRaw out) d call) e3 s3 r.
Proof. exact (named_turns ec parse fn args named file pos e s body ps q d c0 e1 s1 vs us e2 s2 nm nu e3 s3 out). Qed.
Print Assumptions C24_named_one_after_the_other.
Example C24_named_first : exists e' s', evals ec0 echo (NApply (var "m") [NStr (raw (lit "($b)"))] [(raw (lit "b"), NAtom (raw (lit "x")))] None 0) mac_env st0
  (NPlain (raw (lit "($b) * (x + ($b))")) IndNone false) e' s'.
Proof. exact named_first. Qed.
