(** * Vocabulary for the statements about environments *)
From Coq Require Import List NArith ZArith Bool.
From Verif Require Import PyStr.
Import ListNotations.

(** A scope: names with their values, in order of declaration *)
Definition names {A} (f : list (text * A)) : list text := map fst f.
(** The scope [f] gives [k] the value [v] *)
Definition gives {A} (f : list (text * A)) (k : text) (v : A) : Prop :=
  exists before after, f = before ++ (k, v) :: after /\ ~ In k (names before).
(** The innermost scope of [e] that knows [k] is [f], between [inner] and [outer] *)
Definition innermost {A} (e inner : list (list (text * A))) (f : list (text * A)) (outer : list (list (text * A)))
  (k : text) : Prop :=
  e = inner ++ f :: outer /\ Forall (fun g => ~ In k (names g)) inner /\ In k (names f).
(** No scope knows [k] *)
Definition unknown {A} (e : list (list (text * A))) (k : text) : Prop :=
  Forall (fun g => ~ In k (names g)) e.
(** [f'] is [f] with the value of [k] replaced by [v]; order and everything else kept *)
Definition same_but {A} (k : text) (v : A) (f f' : list (text * A)) : Prop :=
  exists before old after, f = before ++ (k, old) :: after /\ ~ In k (names before)
    /\ f' = before ++ (k, v) :: after.
