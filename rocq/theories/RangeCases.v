(** * Ranges of one, two and three arguments *)
From Coq Require Import List NArith ZArith Bool String Lia ZifyBool ZifyNat ZifyN.
From Verif Require Import PyStr Ast Lex Parse Final Eval Builtin PyStrFacts EnvSpec EnvFacts EvalSpec EvalFacts EvalFacts2 EvalCases ApplyFacts BuiltinSpec BuiltinFacts.
Import ListNotations.
Open Scope list_scope.

(** the bounds the arguments of [range] tell: from 0 and by steps of 1, unless they say otherwise *)
Inductive range_args : list node -> Z -> Z -> Z -> Prop :=
| RA_stop y : range_args [NInt y] 0 y 1
| RA_start x y : range_args [NInt x; NInt y] x y 1
| RA_step x y d : d <> 0%Z -> range_args [NInt x; NInt y; NInt d] x y d.

Lemma range_counts' a b d : d <> 0%Z -> counts a b d (py_range a b d).
Proof.
  intros Hd.
  assert (Z0 : ((d < 0 -> a >= b) /\ (0 < d -> a <= b) \/ (0 < d /\ b < a) \/ (d < 0 /\ a < b))%Z) by lia.
  destruct Z0 as [[H1 H2]|H]; [apply range_counts; assumption|].
  assert (L : py_range a b d = []).
  { unfold py_range. replace (range_len a b d) with O; [reflexivity|]. unfold range_len. symmetry. destruct H as [[H1 H2]|[H1 H2]].
    - replace (0 <? d)%Z with true by lia. pose proof (Z.div_lt_upper_bound (b - a + d - 1) d 1 H1). lia.
    - replace (0 <? d)%Z with false by lia. pose proof (Z.div_lt_upper_bound (a - b - d - 1) (- d) 1). lia. }
  rewrite L. split; [intros [|i] v Hv; discriminate Hv|]. cbn [length]. destruct H as [[H1 H2]|[H1 H2]]; [left|right]; (split; [exact H1|]; split; [intros i Hi; inversion Hi|cbn; lia]).
Qed.
Lemma call_range' ec parse e e2 s s2 file pos a args vs x y d : s_txt a = lit "range" -> standard ec e (s_txt a) -> evals ec parse (NList args) e s (NList vs) e2 s2 ->
  range_args vs x y d -> exists w, counts x y d w /\ evals ec parse (NApply (NVar (RList []) a) args [] file pos) e s (NList w) e2 s2.
Proof.
  intros Hn Hs Ha Hr. rewrite Hn in Hs. exists (py_range x y d). split.
  - apply range_counts'. destruct Hr; [discriminate|discriminate|assumption].
  - apply (call_builtin ec parse a (lit "range") b_range args vs e s e2 s2 file pos (NList (py_range x y d)) s2 Hn Hs eq_refl Ha); [destruct Hr; reflexivity|].
    destruct Hr as [y|x y|x y d Hd]; unfold b_range; cbn [map int_of]; [reflexivity|reflexivity|]. replace (d =? 0)%Z with false by lia. reflexivity.
Qed.
Lemma same_elements (w : list node) : forall w', (forall i, nth_error w i = nth_error w' i) -> w = w'.
Proof. induction w as [|a w IH]; intros [|b w'] H; [reflexivity|discriminate (H O)|discriminate (H O)|]. f_equal; [specialize (H O); injection H as H; exact H|apply IH; intros i; exact (H (S i))]. Qed.
(** counting is a function *)
Lemma counts_one x y d w w' : counts x y d w -> counts x y d w' -> w = w'.
Proof.
  intros [H1 H2] [H1' H2'].
  assert (L : List.length w = List.length w').
  { destruct (Nat.lt_trichotomy (List.length w) (List.length w')) as [L|[L|L]]; [|exact L|]; exfalso; destruct H2 as [(Hd & B & E)|(Hd & B & E)], H2' as [(Hd' & B' & E')|(Hd' & B' & E')]; try lia.
    - specialize (B' _ L). lia.
    - specialize (B' _ L). lia.
    - specialize (B _ L). lia.
    - specialize (B _ L). lia. }
  clear H2 H2'. apply same_elements. intros i. destruct (nth_error w i) as [v|] eqn:Ev.
  - rewrite (H1 i v Ev). destruct (nth_error w' i) as [v'|] eqn:Ev'; [rewrite (H1' i v' Ev'); reflexivity|]. apply nth_error_None in Ev'. assert (i < List.length w)%nat by (apply nth_error_Some; congruence). lia.
  - apply nth_error_None in Ev. symmetry. apply nth_error_None. lia.
Qed.
Lemma range_case : standard ec0 [] (lit "range") /\ evals ec0 noparse (call (var "range") [NInt 3]) [] st0 (NList [NInt 0; NInt 1; NInt 2]) [] st0 /\
  evals ec0 noparse (call (var "range") [NInt 4; NInt 6]) [] st0 (NList [NInt 4; NInt 5]) [] st0 /\ evals ec0 noparse (call (var "range") [NInt 6; NInt 4]) [] st0 (NList []) [] st0.
Proof. split; [split; [constructor|intros im; reflexivity]|]. repeat split; run 9%nat. Qed.
