(** * Environments

    Statements only; each proof is one lemma of the facts files. *)
From Coq Require Import List NArith ZArith.
From Verif Require Import PyStr Ast Eval EnvSpec EnvFacts EnvCases.
Import ListNotations.

(** ** C13 *)
Theorem C13_lookup_innermost : forall e inner f outer k v,
  innermost e inner f outer k -> gives f k v -> lookup e k = Some v.
Proof. exact lookup_innermost. Qed.
Print Assumptions C13_lookup_innermost.

Theorem C13_lookup_unknown : forall e k, lookup e k = None <-> unknown e k.
Proof. exact lookup_unknown. Qed.
Print Assumptions C13_lookup_unknown.

Theorem C13_assignment : forall k v f,
  gives (frame_set k v f) k v /\
  (forall k' v', k' <> k -> gives (frame_set k v f) k' v' <-> gives f k' v') /\
  names (frame_set k v f) = filter (fun x => negb (teqb k x)) (names f) ++ [k].
Proof. exact frame_set_spec. Qed.
Print Assumptions C13_assignment.

Theorem C13_names_stay_distinct : forall k v f, NoDup (names f) -> NoDup (names (frame_set k v f)).
Proof. exact frame_set_nodup. Qed.
Print Assumptions C13_names_stay_distinct.

Theorem C13_update_innermost_only : forall e inner f outer k v,
  innermost e inner f outer k ->
  exists f', update_variable k v e = inner ++ f' :: outer /\ same_but k v f f'.
Proof. exact update_innermost. Qed.
Print Assumptions C13_update_innermost_only.

Theorem C13_update_never_creates : forall e k v, unknown e k -> update_variable k v e = e.
Proof. exact update_unknown. Qed.
Print Assumptions C13_update_never_creates.

Theorem C13_parameters_in_order : forall k before after,
  Forall (fun e => snd e <> NBound) before -> unassigned (before ++ (k, NBound) :: after) = Some k.
Proof. exact unassigned_first. Qed.
Print Assumptions C13_parameters_in_order.

Theorem C13_no_parameter_left : forall f, Forall (fun e => snd e <> NBound) f -> unassigned f = None.
Proof. exact unassigned_none. Qed.
Print Assumptions C13_no_parameter_left.

Example C13_case :
  let inner := [(lit "a", NInt 1)] in
  let outer := [(lit "b", NInt 2); (lit "a", NInt 3)] in
  innermost [inner; outer] [inner] outer [] (lit "b") /\
  lookup [inner; outer] (lit "b") = Some (NInt 2) /\ lookup [inner; outer] (lit "a") = Some (NInt 1) /\
  update_variable (lit "b") (NInt 5) [inner; outer] = [inner; [(lit "b", NInt 5); (lit "a", NInt 3)]].
Proof. exact env_case. Qed.
