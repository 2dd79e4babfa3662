(** * Vocabulary for the statements about a whole run *)
From Coq Require Import List NArith ZArith Bool.
From Verif Require Import PyStr LexSpec Ast.
Import ListNotations.
Open Scope N_scope.

(** Text in which no construct begins, made of permitted characters *)
Definition plain_text (t : text) : Prop :=
  Forall permitted t /\ ~ occurs (lit "($") t /\ ~ occurs (lit "(`") t.

(** A piece of source text in a tree and the text it stands for: running text,
    a string literal, a remark or a line end of the header. *)
Inductive piece_of_text : node -> text -> Prop :=
| pt_plain t f p i : piece_of_text (NPlain (Src t f p) i false) t
| pt_str t f p : piece_of_text (NStr (Src t f p)) t
| pt_remark t f p : piece_of_text (NRemark (Src t f p)) t
| pt_source t f p : piece_of_text (NSource (Src t f p)) t.
(** The pieces [l], one after the other, are the text [t]. *)
Inductive spells : list node -> text -> Prop :=
| sp_nil : spells [] []
| sp_cons x l w t : piece_of_text x w -> spells l t -> spells (x :: l) (w ++ t).

(** ** The magic comment of a Python source *)

(** characters of an encoding name *)
Definition encoding_char (c : char) : Prop := letter c \/ decimal_digit c \/ c = 45.
(** [word] tells the characters that continue a word. *)
Section Magic.
Variable word : char -> bool.
Definition word_ends (r : text) : Prop := match r with [] => True | c :: _ => word c = false end.
(** [r] begins with the declaration: coding, a colon or an equal sign, blanks,
    yupp, in any case of letters; [z] is what follows. *)
Definition coding_then (r z : text) : Prop :=
  exists k sep b y, r = k ++ sep :: b ++ y ++ z /\ lower k = lit "coding" /\ (sep = 58 \/ sep = 61) /\
    Forall blank b /\ lower y = lit "yupp".
(** Behind it, a dot and the name of an encoding *)
Definition with_encoding (r : text) : Prop :=
  exists z enc z', coding_then r z /\ z = 46 :: enc ++ z' /\ enc <> [] /\ Forall encoding_char enc /\ word_ends z'.
Definition without_encoding (r : text) : Prop :=
  ~ with_encoding r /\ exists z, coding_then r z /\ word_ends z.
Definition names_yupp (r : text) : Prop := with_encoding r \/ without_encoding r.
(** The first declaration in the comment [c] *)
Definition magic (kind : text -> Prop) (c : text) : Prop :=
  exists a r, c = a ++ r /\ kind r /\
    forall a' r', c = a' ++ r' -> (length a' < length a)%nat -> ~ names_yupp r'.
Definition not_magic (c : text) : Prop := forall a r, c = a ++ r -> ~ names_yupp r.

(** A comment that reaches to the end of its line; [rest] is what follows. *)
Definition comment_line (c rest : text) : Prop :=
  (exists body, c = 35 :: body /\ Forall (fun x => ~ line_end x) body) /\ match rest with [] => True | x :: _ => line_end x end.

(** What is kept of a magic comment: nothing, or the comment without yupp and
    the dot if an encoding is named. *)
Inductive kept_of : text -> text -> Prop :=
| kept_nothing c : magic without_encoding c -> kept_of c []
| kept_encoding a b : magic with_encoding (a ++ lit "yupp." ++ b) ->
    (forall a' b', a ++ lit "yupp." ++ b = a' ++ lit "yupp." ++ b' -> (length a <= length a')%nat) ->
    kept_of (a ++ lit "yupp." ++ b) (a ++ b).
(** [header t kept rest n]: the magic comment is in line [n] of [t]; [kept] is
    what is kept up to its end and [rest] is what follows. *)
Inductive header : text -> text -> text -> nat -> Prop :=
| header_first sp c rest kept : Forall blank sp -> comment_line c rest -> kept_of c kept ->
    header (sp ++ c ++ rest) kept rest 1
| header_empty_line sp e sp' c rest kept : Forall blank sp -> line_end e -> Forall blank sp' ->
    comment_line c rest -> kept_of c kept -> header (sp ++ e :: sp' ++ c ++ rest) kept rest 2
| header_second sp sb e sp' c rest kept : Forall blank sp -> comment_line sb (e :: sp' ++ c ++ rest) -> not_magic sb ->
    line_end e -> Forall blank sp' -> comment_line c rest -> kept_of c kept ->
    header (sp ++ sb ++ e :: sp' ++ c ++ rest) (sb ++ e :: kept) rest 2.
(** No comment in the first two lines of [t] names yupp. *)
Definition no_magic (t : text) : Prop :=
  forall x c rest, t = x ++ c ++ rest -> (length (filter (fun e : char => ((e =? 10) || (e =? 13))%N) x) <= 1)%nat ->
    comment_line c rest -> not_magic c.
End Magic.
