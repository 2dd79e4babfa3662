(** * Vocabulary for the statements about indentation

    Nothing here refers to the model of the program. *)
From Coq Require Import List NArith ZArith Bool.
From Verif Require Import PyStr FinalSpec.
Import ListNotations.
Open Scope N_scope.

(** spaces and tabs only *)
Definition blank (l : text) : Prop := Forall (fun c => c = 32 \/ c = 9) l.
Definition prefix (a l : text) : Prop := exists b, l = a ++ b.
(** [margin c lines]: [c] is the longest run of spaces and tabs that starts every line
    that is not blank *)
Definition margin (c : text) (lines : list text) : Prop :=
  blank c /\ (forall l, In l lines -> ~ blank l -> prefix c l) /\
  (forall c', blank c' -> (forall l, In l lines -> ~ blank l -> prefix c' l) ->
     (exists l, In l lines /\ ~ blank l) -> prefix c' c).
(** a line that is not blank loses [c], a blank one everything *)
Inductive cut (c : text) : text -> text -> Prop :=
| cut_blank l : blank l -> cut c l []
| cut_line l : ~ blank (c ++ l) -> cut c (c ++ l) l.
(** lines joined by line feeds, all but the first starting with [ind]; an empty last line
    (the text ends with a line feed) stays empty *)
Inductive laid (ind : text) : list text -> text -> Prop :=
| laid_one l : laid ind [l] l
| laid_end l : laid ind [l; []] (l ++ [10])
| laid_more l r t : r <> [[]] -> laid ind r t -> laid ind (l :: r) (l ++ [10] ++ ind ++ t).
(** [follows ind u w]: [w] is the text [u] moved to the indentation [ind] *)
Definition follows (ind u w : text) : Prop :=
  exists lines c rest, lines <> [] /\ u = join [10] lines /\ Forall no_break lines /\
    margin c lines /\ Forall2 (cut c) lines rest /\ laid ind rest w.

(** [l] starts with the spaces and tabs [i], and something else follows *)
Definition indented_by (i l : text) : Prop := blank i /\ exists c b, l = i ++ c :: b /\ c <> 32 /\ c <> 9.
(** of any two lines, the indentation of one starts that of the other (no mix of tabs and spaces) *)
Definition even_indentation (lines : list text) : Prop :=
  forall l l' i i', In l lines -> In l' lines -> indented_by i l -> indented_by i' l' -> prefix i i' \/ prefix i' i.
(** no line is blank, but the last one may be empty *)
Inductive full_lines : list text -> Prop :=
| FL_one l : ~ blank l -> full_lines [l]
| FL_end l : ~ blank l -> full_lines [l; []]
| FL_more l r : ~ blank l -> full_lines r -> full_lines (l :: r).
