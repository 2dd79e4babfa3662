(** * Vocabulary for the statements about the codec and tracebacks *)
From Coq Require Import List NArith ZArith Bool.
From Verif Require Import PyStr LexSpec.
Import ListNotations.
Open Scope N_scope.

(** [s] is the lower-case word [w] in any letter case *)
Definition any_case (w s : text) : Prop :=
  Forall2 (fun a b => b = a \/ (97 <= a <= 122 /\ b + 32 = a)) w s.
(** The documented names: yupp and yupp.<known encoding> *)
Definition plain_name (s : text) : Prop := any_case (lit "yupp") s.
Definition dotted_name (known : text -> bool) (s : text) : Prop :=
  exists p enc, s = p ++ 46 :: enc /\ plain_name p /\ known enc = true.

(** The text [c] begins with the line [l]; [r] follows *)
Definition begins_with_line (c l r : text) : Prop :=
  c = l ++ r /\ ((exists b, l = b ++ [10] /\ ~ In 10 b) \/ r = [] /\ ~ In 10 l).
(** The codec is declared in the first line of [c] that has a coding in it, which is the first
    or the second; [r] follows that line *)
Inductive declared (c r : text) : Prop :=
| DC_first l : begins_with_line c l r -> occurs (lit "coding:") l -> declared c r
| DC_second l1 r1 l2 : begins_with_line c l1 r1 -> ~ occurs (lit "coding:") l1 -> begins_with_line r1 l2 r -> declared c r.
