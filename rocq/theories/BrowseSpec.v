(** * Vocabulary for the statements about browsing: the texts that get a table *)
From Coq Require Import List NArith ZArith Bool.
From Verif Require Import PyStr Ast Final TrimSpec OffsetSpec.
Import ListNotations.

(** results built from pieces of text by concatenation, indentation and reduction of empty
    lines (a part that is or has become empty is left out of a concatenation) *)
Inductive built : result -> list OffsetSpec.piece -> Prop :=
| built_piece t b : built (Res t b []) [(t, b)]
| built_add r1 p1 r2 p2 : built r1 p1 -> built r2 p2 -> r_txt r2 <> [] -> built (add_text r1 r2) (p1 ++ p2)
| built_skip r1 p1 r2 p2 : built r1 p1 -> built r2 p2 -> r_txt r2 = [] -> built (add_text r1 r2) p1
| built_trim on ind r p : built r p -> blank ind -> built (trim_with_browse on ind r) p
| built_reduce on r p : built r p -> built (reduce_emptiness_browse on r) p.

(** terminal trees whose ready texts are built and whose indentations are blank *)
Fixpoint browsable (x : node) : Prop :=
  match x with
  | NResult t b o => exists ps, built (Res t b o) ps
  | NTrim a ind => browsable a /\ blank ind
  | NList l | NT l _ => (fix all (l : list node) : Prop := match l with [] => True | y :: r => browsable y /\ all r end) l
  | NLazy a => browsable a
  | _ => True
  end.
