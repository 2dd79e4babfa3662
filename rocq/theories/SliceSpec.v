(** * Slices with a step *)
From Coq Require Import List NArith ZArith.
From Verif Require Import PyStr Ast Eval BuiltinSpec TextSpec.
Import ListNotations.
Open Scope Z_scope.

(** a bound that is given, counted from the end if it is negative, and moved between [lo] and [hi]; or one that is left open *)
Inductive bound (n lo hi open : Z) : option Z -> Z -> Prop :=
| BO_open : bound n lo hi open None open
| BO_given z p q : p = (if z <? 0 then z + n else z) -> lo <= q <= hi -> (p < lo -> q = lo) -> (hi < p -> q = hi) -> (lo <= p <= hi -> q = p) ->
    bound n lo hi open (Some z) q.
(** the elements of [l] at [i], [i + s], [i + s + s] ... as long as the position is still [inside] *)
Inductive walk {A} (l : list A) (inside : Z -> Prop) (s : Z) : Z -> list A -> Prop :=
| WK_stop i : ~ inside i -> walk l inside s i []
| WK_step i x w : inside i -> nth_error l (Z.to_nat i) = Some x -> walk l inside s (i + s) w -> walk l inside s i (x :: w).
Inductive stepped {A} (l : list A) (a b : option Z) (s : Z) (w : list A) : Prop :=
| ST_forward i j : 0 < s -> bound (Z.of_nat (length l)) 0 (Z.of_nat (length l)) 0 a i ->
    bound (Z.of_nat (length l)) 0 (Z.of_nat (length l)) (Z.of_nat (length l)) b j -> walk l (fun p => p < j) s i w -> stepped l a b s w
| ST_backward i j : s < 0 -> bound (Z.of_nat (length l)) (-1) (Z.of_nat (length l) - 1) (Z.of_nat (length l) - 1) a i ->
    bound (Z.of_nat (length l)) (-1) (Z.of_nat (length l) - 1) (-1) b j -> walk l (fun p => j < p) s i w -> stepped l a b s w.
(** a number, or nothing: an empty text *)
Inductive choice : node -> option Z -> Prop :=
| CH_number x z : int_value x z -> choice x (Some z)
| CH_empty x : string_value x [] -> choice x None.
(** the arguments behind the list: end; start and end; start, end and step *)
Inductive slice_args : list node -> option Z -> option Z -> Z -> Prop :=
| SA_end y b : choice y b -> slice_args [y] None b 1
| SA_range x y a b : choice x a -> choice y b -> slice_args [x; y] a b 1
| SA_step x y z a b s : choice x a -> choice y b -> choice z (Some s) -> slice_args [x; y; z] a b s
| SA_open x y z a b : choice x a -> choice y b -> choice z None -> slice_args [x; y; z] a b 1.
