(** * Vocabulary for the statements about locations and dumps *)
From Coq Require Import List NArith ZArith Bool.
From Verif Require Import PyStr Ast LexSpec Loc.
Import ListNotations.
Open Scope N_scope.

(** [b] is [a] with line feeds and spaces inserted *)
Inductive padded : text -> text -> Prop :=
| pad_nil : padded [] []
| pad_keep c a b : padded a b -> padded (c :: a) (c :: b)
| pad_ins c a b : c = 10 \/ c = 32 -> padded a b -> padded a (c :: b).

(** Line feeds of a text *)
Definition line_feeds (s : text) : nat := length (filter (N.eqb 10) s).
(** Position [pos] of [sou] lies in [line], which follows the complete lines [pre] *)
Definition in_line (sou : text) (pos : nat) (pre line post : text) : Prop :=
  sou = pre ++ line ++ post /\
  (pre = [] \/ exists p, pre = p ++ [10]) /\ ~ In 10 line /\
  (post = [] \/ exists p, post = 10 :: p) /\
  (length pre <= pos <= length pre + length line)%nat.
(** Line breaks other than the line feed *)
Definition only_lf (s : text) : Prop := Forall (fun c => py_isbreak c = true -> c = 10) s.

(** ** The places an error message names *)
(** Line [n] of the text [t] is that of position [pos] *)
Definition on_line (t : text) (pos n : nat) : Prop :=
  exists pre line post, in_line t pos pre line post /\ only_lf t /\ line <> [] /\ n = S (line_feeds pre).
(** The name shown for a file: its path, or the name it is known under *)
Inductive shown_as (f : text) : decl -> text -> Prop :=
| SA_path c p : shown_as f (DPath (c :: p)) (c :: p)
| SA_stdin : shown_as f DNone f
| SA_empty : shown_as f (DPath []) f.
(** Texts made by macros are known by the number of the call *)
Definition number (f : text) (i : nat) : Prop := f <> [] /\ Forall decimal_digit f /\ value 10 f = Z.of_nat i.
(** The places of position [pos] in the text known as [f]. In a file: that of the
    position. In a text that a macro has made: the places of the call, those of the
    macro, and the line in that text. [source]: the texts that are known;
    [calls]: where the macros were called, if that is known. *)
Section Places.
Variable source : list (text * (decl * text)).
Variable calls : list (option Ast.source).
Inductive places : text -> nat -> list locline -> Prop :=
| PL_file f pos d t name n : ~ (exists i, number f i) -> dict_get f source = Some (d, t) -> shown_as f d name -> on_line t pos n ->
    places f pos [LFile name n]
| PL_macro f pos i m fm t g fg l1 l2 n : number f i -> dict_get f source = Some (DSrc m, t) ->
    nth_error calls i = Some (Some g) -> s_file g = Some fg -> places fg (Z.to_nat (s_pos g)) l1 ->
    s_file m = Some fm -> places fm (Z.to_nat (s_pos m)) l2 ->
    on_line t pos n -> places f pos (l1 ++ l2 ++ [LMacro (s_txt m) n])
| PL_unknown_call f pos i m fm t l2 n : number f i -> dict_get f source = Some (DSrc m, t) ->
    nth_error calls i = Some None ->
    s_file m = Some fm -> places fm (Z.to_nat (s_pos m)) l2 ->
    on_line t pos n -> places f pos (l2 ++ [LMacro (s_txt m) n]).
End Places.
