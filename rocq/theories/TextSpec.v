(** * Vocabulary for the statements about text and number functions *)
From Coq Require Import List NArith ZArith Bool.
From Verif Require Import PyStr Ast Eval Builtin Builtin2 LexSpec EnvSpec EvalSpec.
Import ListNotations.
Open Scope Z_scope.

(** [p] occurs in [s] behind [i] characters *)
Definition occurs_at (p s : text) (i : nat) : Prop := exists a b, s = a ++ p ++ b /\ length a = i.
(** the position of the first and of the last occurrence; -1 if there is none *)
Inductive first_place (p s : text) : Z -> Prop :=
| FP_at i : occurs_at p s i -> (forall j, occurs_at p s j -> (i <= j)%nat) -> first_place p s (Z.of_nat i)
| FP_none : (forall j, ~ occurs_at p s j) -> first_place p s (-1).
Inductive last_place (p s : text) : Z -> Prop :=
| LP_at i : occurs_at p s i -> (forall j, occurs_at p s j -> (j <= i)%nat) -> last_place p s (Z.of_nat i)
| LP_none : (forall j, ~ occurs_at p s j) -> last_place p s (-1).
(** [l] are the parts of a text between the occurrences of [p] taken one after another from the left *)
Inductive parts (p : text) : text -> list text -> Prop :=
| PA_last t : (forall i, ~ occurs_at p t i) -> parts p t [t]
| PA_next a b l : (forall i, occurs_at p (a ++ p ++ b) i -> (length a <= i)%nat) -> parts p b l -> parts p (a ++ p ++ b) (a :: l).
(** the texts of [l] one after another with [sep] between them *)
Inductive joined (sep : text) : list text -> text -> Prop :=
| JO_nil : joined sep [] []
| JO_one x : joined sep [x] x
| JO_more x y l t : joined sep (y :: l) t -> joined sep (x :: y :: l) (x ++ sep ++ t).
(** the words of a text: its longest runs of characters other than white space *)
Definition space (c : char) : Prop := py_isspace c = true.
Inductive words_of : text -> list text -> Prop :=
| WO_end t : Forall space t -> words_of t []
| WO_word g w r l : Forall space g -> w <> [] -> Forall (fun c => ~ space c) w ->
    match r with [] => True | c :: _ => space c end -> words_of r l -> words_of (g ++ w ++ r) (w :: l).
(** [w] is [t] without the characters of class [p] at its beginning (end) *)
Definition begins_with (p : char -> Prop) (t : text) : Prop := exists c r, t = c :: r /\ p c.
Definition ends_with (p : char -> Prop) (t : text) : Prop := exists c r, t = r ++ [c] /\ p c.
Definition cut_left (p : char -> Prop) (t w : text) : Prop := exists a, t = a ++ w /\ Forall p a /\ ~ begins_with p w.
Definition cut_right (p : char -> Prop) (t w : text) : Prop := exists a, t = w ++ a /\ Forall p a /\ ~ ends_with p w.
(** [w] is as long as [t] or [n], whichever is more *)
Definition padding (c : char) (t : text) (n : Z) (pad : text) : Prop :=
  Forall (eq c) pad /\ Z.of_nat (length t + length pad) = Z.max n (Z.of_nat (length t)).
Arguments padding c%N_scope.
(** the digits of a number, most significant first, without leading zeros *)
Definition digits_of (digit : char -> Prop) (base n : Z) (ds : text) : Prop :=
  Forall digit ds /\ value base ds = n /\ ds <> [] /\ (forall r, ds = 48%N :: r -> r = []).
Definition lower_hex_digit (c : char) : Prop := (decimal_digit c \/ (97 <= c <= 102)%N).
(** small and capital letters of ASCII: code points 97-122 and 65-90 *)
Definition small (c : char) : Prop := (97 <= c <= 122)%N.
Definition capital (c : char) : Prop := (65 <= c <= 90)%N.
Definition to_small (c d : char) : Prop := (capital c /\ (d = c + 32)%N) \/ (~ capital c /\ d = c).
Definition to_capital (c d : char) : Prop := (small c /\ (c = d + 32)%N) \/ (~ small c /\ d = c).
Definition to_other (c d : char) : Prop := to_small c d /\ capital c \/ to_capital c d /\ ~ capital c.
(** the element of [l] at the positions from [a] up to, not including, [b]; negative ones count from the end *)
Definition place (n z : Z) : Z := if z <? 0 then Z.max 0 (n + z) else Z.min z n.
Definition slice_of {A} (l : list A) (a b : Z) (w : list A) : Prop :=
  let n := Z.of_nat (length l) in
  exists u v, l = u ++ w ++ v /\ Z.of_nat (length u) = place n a /\ Z.of_nat (length w) = Z.max 0 (place n b - place n a).
(** [name] denotes the function of the table of built-ins *)
Definition offers (ec : ectx) (name : text) : Prop :=
  exists cx input, forall imported, e_builtin ec imported name = option_map BFun (dict_get name (core ++ more cx input)).
(** wherever no variable hides the name, a call whose arguments evaluate to [vs] has the value [v] *)
Definition call_yields (ec : ectx) (name : text) (vs : list node) (v : node) : Prop :=
  forall parse a args e s e2 s2 file pos, s_txt a = name -> unknown e name ->
    evals ec parse (NList args) e s (NList vs) e2 s2 ->
    evals ec parse (NApply (NVar (RList []) a) args [] file pos) e s v e2 s2.
(** a value that is a string, with its text *)
Definition string_value (x : node) (t : text) : Prop := str_of x = Some t.
