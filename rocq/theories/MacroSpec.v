(** * Named arguments of macros *)
From Coq Require Import List NArith.
From Verif Require Import PyStr Ast FormatSpec.
Import ListNotations.

(** [unnamed ks ps q]: [q] are the parameters among [ps] that are not named in [ks], in order *)
Inductive unnamed (ks : list text) : list text -> list text -> Prop :=
| UN_end : unnamed ks [] []
| UN_named p r q : In p ks -> unnamed ks r q -> unnamed ks (p :: r) q
| UN_open p r q : ~ In p ks -> unnamed ks r q -> unnamed ks (p :: r) (p :: q).
(** the texts of named arguments *)
Definition inserts_named (b : text * node) (c : text * text) : Prop := fst b = fst c /\ inserts (snd b) (snd c).
