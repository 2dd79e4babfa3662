(** * Texts that are comments *)
From Coq Require Import List NArith ZArith.
From Verif Require Import PyStr Ast TextSpec.
Import ListNotations.
Open Scope N_scope.

(** every line begins with a number sign *)
Definition python_comment (t : text) : Prop :=
  (exists r, t = 35 :: r) /\ forall a b, t = a ++ 10 :: b -> exists r, b = 35 :: r.
(** from an opening mark to the first closing mark *)
Definition c_comment (t : text) : Prop :=
  exists u, t = [47; 42] ++ u ++ [42; 47] /\ forall i, ~ occurs_at [42; 47] (u ++ [42]) i.
Definition one_line (t : text) : Prop := ~ In 10 t.
