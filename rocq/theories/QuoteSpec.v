(** * Vocabulary for the statements about string literals *)
From Coq Require Import List NArith ZArith Bool.
From Verif Require Import PyStr LexSpec.
Import ListNotations.
Open Scope N_scope.

(** [escape w c]: the characters [w], a backslash and what belongs to it, stand for [c] *)
Inductive escape : text -> char -> Prop :=
| ES_backslash : escape [92; 92] 92                (* \\ *)
| ES_single : escape [92; 39] 39                   (* backslash, apostrophe *)
| ES_double : escape [92; 34] 34                   (* backslash, quotation mark *)
| ES_bell : escape [92; 97] 7                      (* \a *)
| ES_backspace : escape [92; 98] 8                 (* \b *)
| ES_form_feed : escape [92; 102] 12               (* \f *)
| ES_line_feed : escape [92; 110] 10               (* \n *)
| ES_return : escape [92; 114] 13                  (* \r *)
| ES_tab : escape [92; 116] 9                      (* \t *)
| ES_vertical : escape [92; 118] 11                (* \v *)
| ES_x ds : Forall hex_digit ds -> length ds = 2%nat -> escape (92 :: 120 :: ds) (Z.to_N (value 16 ds))
| ES_u ds : Forall hex_digit ds -> length ds = 4%nat -> escape (92 :: 117 :: ds) (Z.to_N (value 16 ds))
| ES_U ds : Forall hex_digit ds -> length ds = 8%nat -> (value 16 ds < 1114112)%Z ->
    escape (92 :: 85 :: ds) (Z.to_N (value 16 ds)).
(** characters that begin another escape sequence behind a backslash: line feed,
    quotes, backslash, a b f n r t v x u U N, octal digits *)
Definition escape_letter (e : char) : Prop :=
  In e [10; 34; 39; 92; 97; 98; 102; 110; 114; 116; 118; 120; 117; 85; 78] \/ oct_digit e.
(** [denotes plain w t]: between the quotes, [w] stands for the text [t]; [plain]
    are the characters that may stand for themselves *)
Inductive denotes (plain : char -> Prop) : text -> text -> Prop :=
| DN_end : denotes plain [] []
| DN_char c w t : plain c -> c <> 92 -> denotes plain w t -> denotes plain (c :: w) (c :: t)
| DN_escape e c w t : escape e c -> denotes plain w t -> denotes plain (e ++ w) (c :: t)
| DN_octal ds w t : Forall oct_digit ds -> (1 <= length ds <= 3)%nat ->
    (length ds = 3%nat \/ stops_at oct_digit w) -> denotes plain w t ->
    denotes plain (92 :: ds ++ w) (Z.to_N (value 8 ds) :: t)
| DN_joined w t : denotes plain w t -> denotes plain (92 :: 10 :: w) t
| DN_kept e w t : plain e -> ~ escape_letter e -> denotes plain w t -> denotes plain (92 :: e :: w) (92 :: e :: t).
Definition quote (q : char) : Prop := q = 34 \/ q = 39.
(** inside quotes: neither the quote nor an end of line, nor what is no character *)
Definition inside (q c : char) : Prop := c <> q /\ c <> 10 /\ c <> 13 /\ c <> 0 /\ ~ (55296 <= c <= 57343).
Definition ascii (c : char) : Prop := c < 128.
Definition printable (c : char) : Prop := 32 <= c < 127.
