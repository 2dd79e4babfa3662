(** * Vocabulary for the statements about browse offsets

    Nothing here refers to the model of the program. *)
From Coq Require Import List NArith ZArith Bool.
From Verif Require Import PyStr.
Import ListNotations.
Open Scope nat_scope.

(** A table of (position, shift): from each position on, its shift is in force.
    [in_force tab x d]: at position [x] the shift is [d]. *)
Definition in_force (tab : list (Z * Z)) (x d : Z) : Prop :=
  exists a b, tab = a ++ b /\ Forall (fun e => fst e <= x)%Z a /\ Forall (fun e => x < fst e)%Z b /\
    ((a = [] /\ d = 0%Z) \/ exists a' p, a = a' ++ [(p, d)]).

(** spaces, tabs and line feeds *)
Definition spacing (c : char) : Prop := c = 32%N \/ c = 9%N \/ c = 10%N.
(** [aligns rel u out]: [rel a b] says that the character at [b] of [out] is the one at [a] of
    [u]; the order is kept, and only spacing is lost or inserted *)
Record aligns (rel : nat -> nat -> Prop) (u out : text) : Prop := {
  al_same : forall a b, rel a b -> exists c, nth_error u a = Some c /\ nth_error out b = Some c;
  al_order : forall a b a' b', rel a b -> rel a' b' -> (a < a' <-> b < b');
  al_kept : forall a c, nth_error u a = Some c -> ~ spacing c -> exists b, rel a b;
  al_from : forall b c, nth_error out b = Some c -> ~ spacing c -> exists a, rel a b
}.

(** Pieces of text, each with the table of its origins: (position in the piece, file, position there) *)
Definition piece := (text * list (Z * nat * Z))%type.
Definition raw_text (ps : list piece) : text := concat (map fst ps).
(** the origins of all pieces, at their positions in the raw text *)
Fixpoint origins (start : Z) (ps : list piece) : list (Z * nat * Z) :=
  match ps with
  | [] => []
  | (t, b) :: r => map (fun '(p, f, q) => (start + p, f, q)%Z) b ++ origins (start + Z.of_nat (length t)) r
  end.
(** the origins of a piece are sorted positions inside the piece *)
Fixpoint sorted_within (lo hi : Z) (b : list (Z * nat * Z)) : Prop :=
  match b with [] => True | (p, _, _) :: r => (lo <= p < hi)%Z /\ sorted_within p hi r end.
Definition proper (p : piece) : Prop := sorted_within 0 (Z.of_nat (length (fst p))) (snd p).
