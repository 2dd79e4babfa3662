(** * Vocabulary for the statements about what names mean *)
From Coq Require Import List NArith ZArith Bool.
From Verif Require Import PyStr Ast Eval LexSpec TextSpec.
Import ListNotations.

(** [t] is [x] without the white space around it *)
Definition bare_text (x t : text) : Prop :=
  exists a b, x = a ++ t ++ b /\ Forall space a /\ Forall space b /\ ~ begins_with space t /\ ~ ends_with space t.
(** An option NAME or NAME:value of the configuration gives the name a value: the
    text behind the colon, or true if there is none *)
Inductive option_sets : text -> text -> node -> Prop :=
| OS_bare x k : ~ In 58%N x -> bare_text x k -> identifier k -> option_sets x k (NBool true)
| OS_empty x k m : ~ In 58%N x -> bare_text x k -> identifier k -> Forall space m -> option_sets (x ++ 58%N :: m) k (NBool true)
| OS_value x k m t : ~ In 58%N x -> bare_text x k -> identifier k -> bare_text m t -> t <> [] ->
    option_sets (x ++ 58%N :: m) k (NRaw t).
(** the last option that sets the name decides *)
Definition configured (opts : list text) (k : text) (v : node) : Prop :=
  exists before x after, opts = before ++ x :: after /\ option_sets x k v /\
    forall y v', In y after -> ~ option_sets y k v'.
Definition not_configured (opts : list text) (k : text) : Prop := forall x v, In x opts -> ~ option_sets x k v.
(** [step]: a function of two arguments; [folds step acc l v]: starting from [acc],
    combined with the elements of [l] one after another, [v] results *)
Inductive folds (step : node -> node -> node -> Prop) : node -> list node -> node -> Prop :=
| FD_end acc : folds step acc [] acc
| FD_next acc x r y v : step acc x y -> folds step y r v -> folds step acc (x :: r) v.
(** truth values: none, zero, the empty text and the empty list are false *)
Inductive false_value : node -> Prop :=
| FV_none : false_value NNone
| FV_zero : false_value (NInt 0)
| FV_false : false_value (NBool false)
| FV_text x : str_of x = Some [] -> false_value x
| FV_list x : list_of x = Some [] -> false_value x.
