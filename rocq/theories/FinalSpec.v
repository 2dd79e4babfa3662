(** * Vocabulary for the statements about the final text processing

    Nothing here refers to the model of the program. *)
From Coq Require Import List NArith ZArith Bool.
From Verif Require Import PyStr.
Import ListNotations.
Open Scope N_scope.

Definition no_break (l : text) : Prop := Forall (fun c => py_isbreak c = false) l.
(** The lines of a text, without their terminators (CR LF counts as one). *)
Inductive lines_of : text -> list text -> Prop :=
| lo_nil : lines_of [] []
| lo_last l : l <> [] -> no_break l -> lines_of l [l]
| lo_crlf l r ls : no_break l -> lines_of r ls -> lines_of (l ++ 13 :: 10 :: r) (l :: ls)
| lo_one l c r ls : no_break l -> py_isbreak c = true -> (c = 13 -> forall r', r <> 10 :: r') ->
    lines_of r ls -> lines_of (l ++ c :: r) (l :: ls).
(** A line of white space only *)
Definition blank_line (l : text) : Prop := Forall (fun c => py_isspace c = true) l.
(** [a] is [l] without its trailing white space *)
Definition trimmed_end (l a : text) : Prop :=
  exists w, l = a ++ w /\ blank_line w /\ (a = [] \/ exists b c, a = b ++ [c] /\ py_isspace c = false).
(** Lines each ended by a line feed *)
Definition unlines (ls : list text) : text := concat (map (fun l => l ++ [10]) ls).
(** No two successive elements satisfy [P] *)
Fixpoint never_twice (P : text -> Prop) (ls : list text) : Prop :=
  match ls with
  | a :: ((b :: _) as r) => ~ (P a /\ P b) /\ never_twice P r
  | _ => True
  end.
(** [out] is [ls] where each line lost its trailing white space and some lines
    were left out, each of them a blank line following a blank line. *)
Inductive squeezed : bool -> list text -> list text -> Prop :=
| sq_nil b : squeezed b [] []
| sq_keep b l a ls out : ~ blank_line l -> trimmed_end l a -> squeezed false ls out ->
    squeezed b (l :: ls) (a :: out)
| sq_blank l ls out : blank_line l -> squeezed true ls out -> squeezed false (l :: ls) ([] :: out)
| sq_drop l ls out : blank_line l -> squeezed true ls out -> squeezed true (l :: ls) out.
(** One line without trailing white space *)
Definition tidy (l : text) : Prop :=
  no_break l /\ (l = [] \/ exists b c, l = b ++ [c] /\ py_isspace c = false).
