(** * Vocabulary for further text functions *)
From Coq Require Import List NArith ZArith Bool.
From Verif Require Import PyStr LexSpec TextSpec.
Import ListNotations.
Open Scope list_scope.

(** the parts of a text between the first [n] occurrences of [p] taken from the left *)
Inductive first_parts (p : text) : nat -> text -> list text -> Prop :=
| FP_enough t : first_parts p 0 t [t]
| FP_last n t : (forall i, ~ occurs_at p t i) -> first_parts p n t [t]
| FP_next n a b l : (forall i, occurs_at p (a ++ p ++ b) i -> (length a <= i)%nat) -> first_parts p n b l -> first_parts p (S n) (a ++ p ++ b) (a :: l).
(** [tabbed size col t u]: behind [col] characters of a line, [u] is [t] with every tab filled up
    with blanks to the next multiple of [size] *)
Inductive tabbed (size : nat) : nat -> text -> text -> Prop :=
| TB_end col : tabbed size col [] []
| TB_tab col k t u : (1 <= k <= size)%nat -> ((col + k) mod size = 0)%nat -> tabbed size (col + k) t u -> tabbed size col (9%N :: t) (repeat 32%N k ++ u)
| TB_break col c t u : c = 10%N \/ c = 13%N -> tabbed size 0 t u -> tabbed size col (c :: t) (c :: u)
| TB_char col c t u : c <> 9%N -> c <> 10%N -> c <> 13%N -> tabbed size (S col) t u -> tabbed size col (c :: t) (c :: u).
(** a character Python counts as a digit, up to U+00FF: 0-9 and the superscripts *)
Definition digit_like (c : char) : Prop := decimal_digit c \/ c = 178%N \/ c = 179%N \/ c = 185%N.
(** the name of a file without directory and extension, in capitals and with underscores *)
Definition underscored (c d : char) : Prop := (c = 45%N /\ d = 95%N) \/ (c <> 45%N /\ to_capital c d).
(** [t] comes before [u]: it is shorter and [u] begins with it, or at the first difference its character is smaller *)
Definition before (t u : text) : Prop :=
  (exists c r, u = t ++ c :: r) \/ (exists w c d r s, t = w ++ c :: r /\ u = w ++ d :: s /\ (c < d)%N).
(** [w] is [l] over and over, [n] times; not at all if [n] is negative *)
Inductive copies {A} (l : list A) : Z -> list A -> Prop :=
| CP_none n : (n <= 0)%Z -> copies l n []
| CP_more n w : (0 <= n)%Z -> copies l n w -> copies l (n + 1) (l ++ w).
(** [x] is the element of [l] at position [i], counted from the end if negative *)
Definition item_at {A} (l : list A) (i : Z) (x : A) : Prop :=
  exists a b, l = a ++ x :: b /\ (i = Z.of_nat (length a) \/ i = - Z.of_nat (length (x :: b)))%Z.
