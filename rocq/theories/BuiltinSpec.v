(** * Vocabulary for the statements about list functions *)
From Coq Require Import List NArith ZArith Bool.
From Verif Require Import PyStr Ast Eval Builtin EnvSpec EvalSpec.
Import ListNotations.
Open Scope Z_scope.

(** equality of values: strings by text, integers by value (true is 1), lists element by element *)
Inductive equal : node -> node -> Prop :=
| EQ_int a b z : int_value a z -> int_value b z -> equal a b
| EQ_str a b t : str_of a = Some t -> str_of b = Some t -> equal a b
| EQ_none : equal NNone NNone
| EQ_float t : equal (NFloat t) (NFloat t)
| EQ_nil a b : list_of a = Some [] -> list_of b = Some [] -> equal a b
| EQ_cons a b x y l m : list_of a = Some (x :: l) -> list_of b = Some (y :: m) -> equal x y -> equal (NList l) (NList m) -> equal a b
| EQ_trim x i y j : equal x y -> equal (NTrim x i) (NTrim y j)
| EQ_lazy x y : equal x y -> equal (NLazy x) (NLazy y)
with int_value : node -> Z -> Prop :=
| IV_int z : int_value (NInt z) z
| IV_true : int_value (NBool true) 1
| IV_false : int_value (NBool false) 0.

(** [v] first occurs in [l] at position [i]; -1 if it does not occur *)
Inductive first_at (l : list node) (v : node) : Z -> Prop :=
| FA_at before x after : l = before ++ x :: after -> equal x v -> Forall (fun y => ~ equal y v) before ->
    first_at l v (Z.of_nat (length before))
| FA_none : Forall (fun y => ~ equal y v) l -> first_at l v (-1).
(** [v] last occurs in [l] at position [i] *)
Inductive last_at (l : list node) (v : node) : Z -> Prop :=
| LA_at before x after : l = before ++ x :: after -> equal x v -> Forall (fun y => ~ equal y v) after ->
    last_at l v (Z.of_nat (length before))
| LA_none : Forall (fun y => ~ equal y v) l -> last_at l v (-1).
(** the elements of [l] that equal none before them nor one in [seen], in order *)
Inductive first_occurrences : list node -> list node -> list node -> Prop :=
| FO_end seen : first_occurrences seen [] []
| FO_known seen x y l w : In y seen -> equal x y -> first_occurrences seen l w -> first_occurrences seen (x :: l) w
| FO_new seen x l w : Forall (fun y => ~ equal x y) seen -> first_occurrences (seen ++ [x]) l w ->
    first_occurrences seen (x :: l) (x :: w).
(** the integers from [a] by steps of [d] up to, but not including, [b] *)
Definition counts (a b d : Z) (l : list node) : Prop :=
  (forall i v, nth_error l i = Some v -> v = NInt (a + Z.of_nat i * d)) /\
  ((0 < d /\ (forall i, (i < length l)%nat -> a + Z.of_nat i * d < b) /\ b <= a + Z.of_nat (length l) * d) \/
   (d < 0 /\ (forall i, (i < length l)%nat -> b < a + Z.of_nat i * d) /\ a + Z.of_nat (length l) * d <= b)).

(** the name denotes the function of the table, and no variable hides it *)
Definition standard (ec : ectx) (e : env) (name : text) : Prop :=
  unknown e name /\ (forall imported, e_builtin ec imported name = option_map BFun (dict_get name core)).
(** values that Python can put into a set *)
Definition simple (v : node) : Prop := v = NNone \/ (exists t, v = NFloat t) \/ (exists z, int_value v z) \/ (exists t, str_of v = Some t).
