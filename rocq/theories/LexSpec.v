(** * Small independent vocabulary for the statements about reading text

    Nothing here refers to the model of the program, only to characters. *)
From Coq Require Import List NArith ZArith Bool.
From Verif Require Import PyStr.
Import ListNotations.
Open Scope N_scope.

(** Characters, by code point. *)
Definition letter (c : char) : Prop := (97 <= c <= 122) \/ (65 <= c <= 90) \/ c = 95.
Definition decimal_digit (c : char) : Prop := 48 <= c <= 57.
Definition name_char (c : char) : Prop := letter c \/ decimal_digit c \/ c = 45.
Definition line_end (c : char) : Prop := c = 10 \/ c = 13.
Definition blank (c : char) : Prop := c = 32 \/ c = 9.
Definition white (c : char) : Prop := blank c \/ line_end c.
(** Characters that may occur in a source: line ends, tab, U+0020 .. U+00FF *)
Definition permitted (c : char) : Prop := line_end c \/ c = 9 \/ (32 <= c <= 255).

(** [r] does not begin with a character of class [p] *)
Definition stops_at (p : char -> Prop) (r : text) : Prop :=
  match r with [] => True | c :: _ => ~ p c end.
(** [a] is the longest prefix of [s] whose characters are all in [p]; [r] is the rest *)
Definition longest_run (p : char -> Prop) (s a r : text) : Prop :=
  s = a ++ r /\ Forall p a /\ stops_at p r.

(** An identifier *)
Definition identifier (s : text) : Prop :=
  match s with c :: r => letter c /\ Forall name_char r | [] => False end.

(** [closes d s]: reading [s] at parenthesis depth [d] never meets a closing
    parenthesis without partner and ends at depth [e]. *)
Inductive nesting : nat -> text -> nat -> Prop :=
| nest_end d : nesting d [] d
| nest_open d s e : nesting (S d) s e -> nesting d (40 :: s) e
| nest_close d s e : nesting d s e -> nesting (S d) (41 :: s) e
| nest_other d c s e : c <> 40 -> c <> 41 -> nesting d s e -> nesting d (c :: s) e.
Definition balanced (s : text) : Prop := nesting 0 s 0.

(** The value of a digit string, most significant digit first *)
Definition digit_value (c : char) : Z :=
  if (48 <=? c) && (c <=? 57) then (Z.of_N c - 48)%Z
  else if (97 <=? c) && (c <=? 102) then (Z.of_N c - 87)%Z
  else (Z.of_N c - 55)%Z.
Fixpoint value (base : Z) (ds : text) : Z :=
  match ds with
  | [] => 0%Z
  | d :: r => (digit_value d * base ^ Z.of_nat (length r) + value base r)%Z
  end.
Definition hex_digit (c : char) : Prop := decimal_digit c \/ (97 <= c <= 102) \/ (65 <= c <= 70).
Definition oct_digit (c : char) : Prop := 48 <= c <= 55.
Definition bin_digit (c : char) : Prop := c = 48 \/ c = 49.

(** [p] occurs in [s] *)
Definition occurs (p s : text) : Prop := exists a b, s = a ++ p ++ b.

(** Line ends unified: CR LF and CR become LF. *)
Inductive unified : text -> text -> Prop :=
| uni_nil : unified [] []
| uni_crlf s t : unified s t -> unified (13 :: 10 :: s) (10 :: t)
| uni_cr s t : (forall r, s <> 10 :: r) -> unified s t -> unified (13 :: s) (10 :: t)
| uni_other c s t : c <> 13 -> unified s t -> unified (c :: s) (c :: t).
(** Number of line terminators (LF, CR or CR LF counting once). *)
Fixpoint line_ends (s : text) : nat :=
  match s with
  | [] => O
  | c :: r => if c =? 13 then match r with
                              | d :: r' => if d =? 10 then S (line_ends r') else S (line_ends r)
                              | [] => 1
                              end
              else if c =? 10 then S (line_ends r) else line_ends r
  end.

(** Parameter list of a macro: each name followed by white space, which may be
    missing only behind the last one. *)
Fixpoint param_text (ps : list (text * text)) : text :=
  match ps with [] => [] | (n, g) :: r => n ++ g ++ param_text r end.
Fixpoint params_ok (ps : list (text * text)) : Prop :=
  match ps with
  | [] => True
  | (n, g) :: r => identifier n /\ Forall white g /\ (r = [] \/ g <> []) /\ params_ok r
  end.

(** Integer literals without sign and suffix, and the number they denote. *)
Inductive int_literal : text -> Z -> Prop :=
| il_dec d ds : decimal_digit d -> Forall decimal_digit ds ->
    (d <> 48 \/ Forall (eq 48) ds) -> int_literal (d :: ds) (value 10 (d :: ds))
| il_hex x d ds : x = 120 \/ x = 88 -> hex_digit d -> Forall hex_digit ds ->
    int_literal (48 :: x :: d :: ds) (value 16 (d :: ds))
| il_oct x d ds : x = 111 \/ x = 79 -> oct_digit d -> Forall oct_digit ds ->
    int_literal (48 :: x :: d :: ds) (value 8 (d :: ds))
| il_bin x d ds : x = 98 \/ x = 66 -> bin_digit d -> Forall bin_digit ds ->
    int_literal (48 :: x :: d :: ds) (value 2 (d :: ds)).
(** An optional sign and its effect *)
Inductive sign_of : text -> (Z -> Z) -> Prop :=
| sg_none : sign_of [] (fun v => v)
| sg_plus : sign_of [43] (fun v => v)
| sg_minus : sign_of [45] Z.opp.
Definition long_suffix (s : text) : Prop := s = [] \/ s = [108] \/ s = [76].
(** [rest] does not continue a number: no letter, digit or underscore follows,
    and no decimal point with a digit *)
Definition number_ends (rest : text) : Prop :=
  stops_at (fun c => letter c \/ decimal_digit c) rest /\
  (forall d r, rest = 46 :: d :: r -> ~ decimal_digit d).
