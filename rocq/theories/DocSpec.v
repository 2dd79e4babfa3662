(** * Sources of text and written constructs *)
From Coq Require Import List NArith ZArith Bool.
From Verif Require Import PyStr LexSpec Ast Parse PpSpec ProtectSpec ExprSpec.
Import ListNotations.
Open Scope N_scope.

(** The list of trees [l] stands for the contents [d]. *)
Definition stands_for (l : list node) (d : contents) : Prop := map bare l = runs true [] d.
