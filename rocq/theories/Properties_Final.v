(** * Final text processing

    Statements only; each proof is one lemma of the facts files. *)
From Coq Require Import List NArith ZArith.
From Verif Require Import PyStr Ast Final FinalSpec FinalFacts FinalCases.
Import ListNotations.
Open Scope N_scope.

(** ** C27: blank-line reduction *)
Theorem C27_lines_kept_in_order : forall t ls,
  lines_of t ls -> exists out, squeezed false ls out /\
    reduce_emptiness true t = match out with [] => [10] | _ => unlines out end.
Proof. exact reduce_squeezed. Qed.
Print Assumptions C27_lines_kept_in_order.

Theorem C27_every_text_has_lines : forall t, exists ls, lines_of t ls.
Proof. exact every_text_lines. Qed.
Print Assumptions C27_every_text_has_lines.

Theorem C27_shape : forall t,
  exists out, out <> [] /\ reduce_emptiness true t = unlines out /\ Forall tidy out /\ never_twice (eq []) out.
Proof. exact reduce_shape. Qed.
Print Assumptions C27_shape.

Theorem C27_idempotent : forall t, reduce_emptiness true (reduce_emptiness true t) = reduce_emptiness true t.
Proof. exact reduce_idem. Qed.
Print Assumptions C27_idempotent.

Theorem C27_switched_off : forall t, reduce_emptiness false t = t.
Proof. exact reduce_off. Qed.
Print Assumptions C27_switched_off.

Example C27_case :
  let t := lit "a  " ++ [13; 10; 32; 10; 10] ++ lit "  b" in
  lines_of t [lit "a  "; lit " "; []; lit "  b"] /\
  reduce_emptiness true t = lit "a" ++ [10; 10] ++ lit "  b" ++ [10].
Proof. exact reduce_case. Qed.

(** ** C28: steady spaces *)
Theorem C28_only_markers_change : forall t i,
  length (replace_steady t) = length t /\
  (forall c, nth_error t i = Some c ->
     nth_error (replace_steady t) i = Some (if c =? 254 then 32 else if c =? 255 then 9 else c)).
Proof. exact steady_pointwise. Qed.
Print Assumptions C28_only_markers_change.

Example C28_case : replace_steady [97; 254; 98; 255; 10] = [97; 32; 98; 9; 10].
Proof. exact steady_case. Qed.
