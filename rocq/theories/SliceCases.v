(** * Slices with a step: the calls *)
From Coq Require Import String List NArith ZArith Bool Lia ZifyBool ZifyNat ZifyN.
From Verif Require Import PyStr PyStrFacts Ast Final Eval Builtin Builtin2 EnvSpec EvalSpec EvalFacts EvalCases BuiltinSpec BuiltinFacts TextSpec TextFacts TextCases MoreCases SliceSpec.
Import ListNotations.
Open Scope list_scope.
Open Scope Z_scope.

Section Walk.
Context {A : Type}.
Lemma skipn_nth (l : list A) : forall k x r, skipn k l = x :: r -> nth_error l k = Some x /\ skipn (S k) l = r.
Proof. induction l as [|y l IH]; intros [|k] x r E; try discriminate E; [injection E as <- <-; split; reflexivity|]. apply (IH k x r E). Qed.
Lemma walk_count (l : list A) (inside : Z -> Prop) s lo m : forall k0,
  (forall k, (k0 <= k < k0 + m)%nat -> inside (lo + Z.of_nat k * s) /\ 0 <= lo + Z.of_nat k * s < Z.of_nat (List.length l)) -> ~ inside (lo + Z.of_nat (k0 + m) * s) ->
  walk l inside s (lo + Z.of_nat k0 * s)
    (flat_map (fun i => match nth_error l (Z.to_nat (lo + Z.of_nat i * s)) with Some x => [x] | None => [] end) (List.seq k0 m)).
Proof.
  induction m as [|m IH]; intros k0 Hk Hm.
  - apply WK_stop. replace (k0 + 0)%nat with k0 in Hm by lia. exact Hm.
  - destruct (Hk k0) as [Hi Hb]; [lia|]. cbn [List.seq flat_map]. destruct (nth_error l (Z.to_nat (lo + Z.of_nat k0 * s))) as [x|] eqn:E.
    + cbn [app]. apply WK_step; [exact Hi|exact E|]. replace (lo + Z.of_nat k0 * s + s) with (lo + Z.of_nat (S k0) * s) by lia. apply IH.
      * intros k Hkk. apply Hk. lia.
      * replace (S k0 + m)%nat with (k0 + S m)%nat by lia. exact Hm.
    + apply nth_error_None in E. lia.
Qed.
Lemma count_forward i j s k : 0 < s -> (k < range_len i j s)%nat -> i + Z.of_nat k * s < j.
Proof.
  intros Hs. unfold range_len. replace (0 <? s) with true by lia. intros Hk. pose proof (Z.div_mod (j - i + s - 1) s) as D. pose proof (Z.mod_pos_bound (j - i + s - 1) s Hs) as B. set (q := (j - i + s - 1) / s) in *. nia.
Qed.
Lemma count_forward_end i j s : 0 < s -> ~ i + Z.of_nat (range_len i j s) * s < j.
Proof.
  intros Hs. unfold range_len. replace (0 <? s) with true by lia. pose proof (Z.div_mod (j - i + s - 1) s) as D. pose proof (Z.mod_pos_bound (j - i + s - 1) s Hs) as B. set (q := (j - i + s - 1) / s) in *. nia.
Qed.
Lemma count_back i j s k : s < 0 -> (k < range_len i j s)%nat -> j < i + Z.of_nat k * s.
Proof.
  intros Hs. unfold range_len. replace (0 <? s) with false by lia. intros Hk. pose proof (Z.div_mod (i - j - s - 1) (- s)) as D. pose proof (Z.mod_pos_bound (i - j - s - 1) (- s)) as B. set (q := (i - j - s - 1) / - s) in *. nia.
Qed.
Lemma count_back_end i j s : s < 0 -> ~ j < i + Z.of_nat (range_len i j s) * s.
Proof.
  intros Hs. unfold range_len. replace (0 <? s) with false by lia. pose proof (Z.div_mod (i - j - s - 1) (- s)) as D. pose proof (Z.mod_pos_bound (i - j - s - 1) (- s)) as B. set (q := (i - j - s - 1) / - s) in *. nia.
Qed.
Lemma bound_forward n open o : 0 <= n -> 0 <= open <= n -> bound n 0 n open o (slice_bound n false open o) /\ 0 <= slice_bound n false open o <= n.
Proof. intros Hn Ho. destruct o as [z|]; cbn [slice_bound]; [|split; [constructor|lia]]. split; [|lia]. eapply BO_given; [reflexivity|destruct (z <? 0); lia|destruct (z <? 0); lia|destruct (z <? 0); lia|destruct (z <? 0); lia]. Qed.
Lemma bound_back n open o : 0 <= n -> -1 <= open <= n - 1 -> bound n (-1) (n - 1) open o (slice_bound n true open o) /\ -1 <= slice_bound n true open o <= n - 1.
Proof. intros Hn Ho. destruct o as [z|]; cbn [slice_bound]; [|split; [constructor|lia]]. split; [|lia]. eapply BO_given; [reflexivity|destruct (z <? 0); lia|destruct (z <? 0); lia|destruct (z <? 0); lia|destruct (z <? 0); lia]. Qed.
Lemma slice_step_spec a b s (l : list A) : s <> 0 -> stepped l a b s (slice_step a b s l).
Proof.
  intros Hs. unfold slice_step. set (n := Z.of_nat (List.length l)). assert (Hn : 0 <= n) by lia. destruct (Z.ltb_spec s 0) as [H|H].
  - destruct (bound_back n (n - 1) a Hn) as [B1 L1]; [lia|]. destruct (bound_back n (-1) b Hn) as [B2 L2]; [lia|]. set (i := slice_bound n true (n - 1) a) in *. set (j := slice_bound n true (-1) b) in *.
    eapply ST_backward; [exact H|exact B1|exact B2|]. replace i with (i + Z.of_nat 0 * s) at 1 by lia. apply walk_count.
    + intros k Hk. pose proof (count_back i j s k H) as C. split; [apply C; lia|]. specialize (C ltac:(lia)). fold n. nia.
    + cbn [Nat.add]. apply count_back_end, H.
  - assert (H' : 0 < s) by lia. destruct (bound_forward n 0 a Hn) as [B1 L1]; [lia|]. destruct (bound_forward n n b Hn) as [B2 L2]; [lia|]. set (i := slice_bound n false 0 a) in *. set (j := slice_bound n false n b) in *.
    eapply ST_forward; [exact H'|exact B1|exact B2|]. replace i with (i + Z.of_nat 0 * s) at 1 by lia. apply walk_count.
    + intros k Hk. pose proof (count_forward i j s k H') as C. split; [apply C; lia|]. specialize (C ltac:(lia)). fold n. nia.
    + cbn [Nat.add]. apply count_forward_end, H'.
Qed.
Lemma walk_part (l : list A) hi : forall k lo, (lo + k = hi)%nat -> (hi <= List.length l)%nat -> walk l (fun p => p < Z.of_nat hi) 1 (Z.of_nat lo) (firstn k (skipn lo l)).
Proof.
  induction k as [|k IH]; intros lo Hk Hl; [apply WK_stop; lia|]. destruct (skipn lo l) as [|x r] eqn:E.
  - exfalso. apply (f_equal (@List.length A)) in E. rewrite skipn_length in E. cbn [length] in E. lia.
  - cbn [firstn]. assert (En : nth_error l lo = Some x) by (apply (skipn_nth l lo x r E)).
    assert (Er : r = skipn (S lo) l) by (symmetry; apply (skipn_nth l lo x r E)).
    apply WK_step; [lia|rewrite Nat2Z.id; exact En|]. rewrite Er. replace (Z.of_nat lo + 1) with (Z.of_nat (S lo)) by lia. apply IH; [lia|exact Hl].
Qed.
Lemma bound_index (l : list A) open o : (open = 0 \/ open = List.length l)%nat ->
  let k := match o with Some z => norm_index (List.length l) z | None => open end in
  bound (Z.of_nat (List.length l)) 0 (Z.of_nat (List.length l)) (Z.of_nat open) o (Z.of_nat k) /\ (k <= List.length l)%nat.
Proof.
  intros Ho. destruct o as [z|]; cbn zeta; [|split; [constructor|lia]]. unfold norm_index. split; [eapply BO_given; [reflexivity|..]|]; destruct (Z.ltb_spec z 0); lia.
Qed.
Lemma slice1_stepped a b (l : list A) : stepped l a b 1 (slice1 a b l).
Proof.
  unfold slice1. destruct (bound_index l 0%nat a) as [B1 L1]; [left; reflexivity|]. destruct (bound_index l (List.length l) b) as [B2 L2]; [right; reflexivity|]. cbn zeta in *.
  set (lo := match a with Some z => norm_index (List.length l) z | None => 0%nat end) in *. set (hi := match b with Some z => norm_index (List.length l) z | None => List.length l end) in *.
  apply ST_forward with (i := Z.of_nat lo) (j := Z.of_nat hi); [lia|exact B1|exact B2|]. destruct (Nat.le_gt_cases lo hi) as [H|H].
  - apply walk_part; [lia|exact L2].
  - replace (hi - lo)%nat with 0%nat by lia. apply WK_stop. lia.
Qed.
End Walk.

Lemma choice_arg x o : choice x o -> slice_arg x = Some o /\ is_term x = true.
Proof.
  destruct 1 as [x z H|x H].
  - destruct (int_value_of x z H) as [E T]. split; [|exact T]. unfold slice_arg. rewrite E. destruct x; try reflexivity. discriminate E.
  - split; [|apply (string_term x [] H)]. unfold slice_arg. rewrite (string_int x [] H). unfold string_value in H. rewrite H. destruct x; try reflexivity; discriminate H.
Qed.
Section Calls.
Variable ec : ectx.
Definition cut {A} (a b : option Z) (s : Z) (l : list A) : list A := if s =? 1 then slice1 a b l else slice_step a b s l.
Lemma cut_stepped {A} a b s (l : list A) : s <> 0 -> stepped l a b s (cut a b s l).
Proof. intros H. unfold cut. destruct (Z.eqb_spec s 1) as [-> | _]; [apply slice1_stepped|apply slice_step_spec, H]. Qed.
Lemma args_cut args a b s x : slice_args args a b s -> s <> 0 ->
  b_getslice (x :: args) = on_seq (fun _ l => cut a b s l) x /\ forallb is_term args = true.
Proof.
  intros H Hs. destruct H as [y b Hy|p q a b Hp Hq|p q r a b s Hp Hq Hr|p q r a b Hp Hq Hr]; unfold b_getslice.
  - destruct (choice_arg y b Hy) as [E T]. rewrite E. cbn [forallb]. rewrite T. split; reflexivity.
  - destruct (choice_arg p a Hp) as [E T], (choice_arg q b Hq) as [E' T']. rewrite E, E'. cbn [forallb]. rewrite T, T'. split; reflexivity.
  - destruct (choice_arg p a Hp) as [E T], (choice_arg q b Hq) as [E' T'], (choice_arg r _ Hr) as [E2 T2]. rewrite E, E', E2. cbn [forallb]. rewrite T, T', T2. split; [|reflexivity].
    destruct s as [|[?|?|]|?]; try contradiction; reflexivity.
  - destruct (choice_arg p a Hp) as [E T], (choice_arg q b Hq) as [E' T'], (choice_arg r _ Hr) as [E2 T2]. rewrite E, E', E2. cbn [forallb]. rewrite T, T', T2. split; reflexivity.
Qed.
Lemma call_stepped l args a b s : offers ec (lit "getslice") -> is_term (NList l) = true -> slice_args args a b s -> s <> 0 ->
  exists w, stepped l a b s w /\ call_yields ec (lit "getslice") (NList l :: args) (NList w).
Proof.
  intros Ho Hl Ha Hs. exists (cut a b s l). split; [apply cut_stepped, Hs|]. destruct (args_cut args a b s (NList l) Ha Hs) as [_ T].
  apply (call_offered ec _ b_getslice _ (NList (cut a b s l)) Ho); [reflexivity|cbn [is_term forallb] in *; rewrite Hl; exact T|].
  intros st. rewrite (proj1 (args_cut args a b s (NList l) Ha Hs)). reflexivity.
Qed.
Lemma call_stepped_text x t args a b s : offers ec (lit "getslice") -> string_value x t -> slice_args args a b s -> s <> 0 ->
  exists w, stepped t a b s w /\ call_yields ec (lit "getslice") (x :: args) (NRaw w).
Proof.
  unfold string_value. intros Ho Hx Ha Hs. exists (cut a b s t). split; [apply cut_stepped, Hs|].
  apply (call_offered ec _ b_getslice _ (NRaw (cut a b s t)) Ho); [reflexivity| |].
  - cbn [is_term forallb]. rewrite (string_term x t Hx). apply (args_cut args a b s x Ha Hs).
  - intros st. rewrite (proj1 (args_cut args a b s x Ha Hs)). unfold on_seq. rewrite (string_seq x t Hx). reflexivity.
Qed.
End Calls.

(** ** One answer *)
Lemma bound_det n lo hi o z p q : bound n lo hi o z p -> bound n lo hi o z q -> p = q.
Proof. destruct 1; inversion 1; subst; [reflexivity|]. repeat match goal with H : context [if ?b then _ else _] |- _ => destruct b end; lia. Qed.
Lemma walk_det {A} (l : list A) inside s i w : walk l inside s i w -> forall w', walk l inside s i w' -> w = w'.
Proof.
  induction 1 as [i H|i x w H E _ IH]; intros w' H'; inversion H'; subst; try contradiction; [reflexivity|]. f_equal; [congruence|apply IH; assumption].
Qed.
Lemma stepped_det {A} (l : list A) a b s w w' : stepped l a b s w -> stepped l a b s w' -> w = w'.
Proof.
  destruct 1 as [i j Hs Hi Hj Hw|i j Hs Hi Hj Hw]; destruct 1 as [i' j' Hs' Hi' Hj' Hw'|i' j' Hs' Hi' Hj' Hw']; try lia;
    pose proof (bound_det _ _ _ _ _ _ _ Hi Hi'); pose proof (bound_det _ _ _ _ _ _ _ Hj Hj'); subst; eapply walk_det; eassumption.
Qed.
Lemma walk_rev {A} (l : list A) : forall k, (k <= List.length l)%nat -> walk l (fun p => -1 < p) (-1) (Z.of_nat k - 1) (rev (firstn k l)).
Proof.
  induction k as [|k IH]; intros Hk; [apply WK_stop; lia|]. destruct (nth_error l k) as [x|] eqn:E; [|apply nth_error_None in E; lia].
  replace (firstn (S k) l) with (firstn k l ++ [x]).
  - rewrite rev_unit. replace (Z.of_nat (S k) - 1) with (Z.of_nat k) by lia. apply WK_step; [lia|rewrite Nat2Z.id; exact E|apply IH; lia].
  - clear -E. revert k E. induction l as [|y l IH]; intros [|k] E; try discriminate E; [injection E as ->; reflexivity|]. cbn [firstn app]. f_equal. apply IH, E.
Qed.
Lemma stepped_rev {A} (l : list A) : stepped l None None (-1) (rev l).
Proof. eapply ST_backward; [lia|constructor|constructor|]. rewrite <- (firstn_all l) at 3. apply walk_rev. lia. Qed.
Lemma call_backward ec l x y z : offers ec (lit "getslice") -> is_term (NList l) = true -> choice x None -> choice y None -> int_value z (-1) ->
  call_yields ec (lit "getslice") [NList l; x; y; z] (NList (rev l)).
Proof.
  intros Ho Hl Hx Hy Hz. destruct (call_stepped ec l [x; y; z] None None (-1) Ho Hl) as (w & Hw & Hc); [apply SA_step; [exact Hx|exact Hy|apply CH_number, Hz]|lia|].
  rewrite (stepped_det _ _ _ _ _ _ (stepped_rev l) Hw). exact Hc.
Qed.

(** ** Steady spaces *)
Lemma call_space ec : offers ec (lit "SPACE") -> exists c, call_yields ec (lit "SPACE") [] (NRaw [c]) /\ py_isspace c = false /\ replace_steady [c] = [32%N].
Proof. intros Ho. exists steady_space. split; [|split; reflexivity]. apply (call_offered ec _ b_space _ (NRaw [steady_space]) Ho); reflexivity. Qed.
Lemma call_tab ec : offers ec (lit "TAB") -> exists c, call_yields ec (lit "TAB") [] (NRaw [c]) /\ py_isspace c = false /\ replace_steady [c] = [9%N].
Proof. intros Ho. exists steady_tab. split; [|split; reflexivity]. apply (call_offered ec _ b_tab _ (NRaw [steady_tab]) Ho); reflexivity. Qed.

(** ** Cases *)
Lemma slice_cases :
  call1 "getslice" [NList [NInt 1; NInt 2; NInt 3; NInt 4; NInt 5]; NInt 9; txt ""; NInt (-2)] (NList [NInt 5; NInt 3; NInt 1]) /\
  call1 "getslice" [NList [NInt 1; NInt 2; NInt 3; NInt 4; NInt 5]; NInt 1; NInt (-1); NInt 2] (NList [NInt 2; NInt 4]) /\
  call1 "getslice" [txt "abcdef"; txt ""; NInt 0; NInt (-3)] (NRaw (lit "fc")) /\
  call1 "getslice" [txt "abcdef"; NInt (-2); txt ""] (NRaw (lit "ef")).
Proof. unfold call1; repeat split; run 9%nat. Qed.
Lemma slice_offers : Forall (fun n => offers ec1 (lit n)) ["getslice"; "SPACE"; "TAB"]%string.
Proof. repeat constructor; exists ctx0, None; intros im; reflexivity. Qed.
Lemma slice_args_case : slice_args [NInt 9; txt ""; NInt (-2)] (Some 9) None (-2).
Proof. apply SA_step; [apply CH_number; constructor|apply CH_empty; reflexivity|apply CH_number; constructor]. Qed.
