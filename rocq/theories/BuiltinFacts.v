(** List functions (proofs only). *)
From Coq Require Import List NArith ZArith Bool Lia ZifyBool ZifyNat ZifyN.
From Verif Require Import PyStr Ast Lex Parse Final Eval Builtin PyStrFacts EnvSpec EnvFacts EvalSpec EvalMono EvalKeep EvalPure EvalFacts EvalFacts2 EvalFacts3 EvalFacts4 BuiltinSpec.
Import ListNotations.
Open Scope list_scope.

(** ** Equality *)
Lemma int_of_value v z : int_of v = Some z <-> int_value v z.
Proof. split; [destruct v; cbn [int_of]; try discriminate; [intros [= <-]; constructor|destruct b; intros [= <-]; constructor]|destruct 1; reflexivity]. Qed.
Fixpoint size (x : node) : nat :=
  match x with
  | NList l | NT l _ => S (fold_right (fun y n => size y + n)%nat O l)
  | NTrim x _ | NLazy x => S (size x)
  | _ => 1%nat
  end.
Lemma py_eq_list a b l m : list_of a = Some l -> list_of b = Some m ->
  py_eq a b = match l, m with
              | [], [] => true
              | x :: l', y :: m' => py_eq x y && py_eq (NList l') (NList m')
              | _, _ => false
              end.
Proof.
  destruct a; try discriminate; destruct b; try discriminate; cbn [list_of]; intros [= ->] [= ->]; destruct l, m; reflexivity.
Qed.
Lemma py_eq_sound : forall n a b, (size a <= n)%nat -> py_eq a b = true -> equal a b.
Proof.
  induction n as [|n IH]; intros a b Hn H; [destruct a; cbn [size] in Hn; lia|].
  destruct (int_of a) as [za|] eqn:Ia; destruct (int_of b) as [zb|] eqn:Ib.
  - assert (E : py_eq a b = (za =? zb)%Z) by (destruct a; cbn in Ia; try discriminate; destruct b; cbn in Ib; try discriminate; injection Ia as <-; injection Ib as <-; reflexivity).
    rewrite E in H. apply Z.eqb_eq in H as <-. eapply EQ_int; apply int_of_value; eassumption.
  - exfalso. destruct a; cbn in Ia; try discriminate Ia; destruct b; cbn in Ib; try discriminate Ib; discriminate H.
  - exfalso. destruct b; cbn in Ib; try discriminate Ib; destruct a; cbn in Ia; try discriminate Ia; discriminate H.
  - destruct (str_of a) as [ta|] eqn:Sa; destruct (str_of b) as [tb|] eqn:Sb.
    + assert (E : py_eq a b = teqb ta tb) by (destruct a; cbn in Sa; try discriminate; destruct b; cbn in Sb; try discriminate; injection Sa as <-; injection Sb as <-; reflexivity).
      rewrite E in H. apply teqb_eq in H as <-. eapply EQ_str; eassumption.
    + exfalso. destruct a; cbn in Sa; try discriminate Sa; destruct b; cbn in Sb; try discriminate Sb; discriminate H.
    + exfalso. destruct b; cbn in Sb; try discriminate Sb; destruct a; cbn in Sa; try discriminate Sa; discriminate H.
    + destruct (list_of a) as [l|] eqn:La; destruct (list_of b) as [m|] eqn:Lb.
      * rewrite (py_eq_list a b l m La Lb) in H. destruct l as [|x l], m as [|y m]; try discriminate H; [apply EQ_nil; assumption|].
        apply andb_prop in H as [H1 H2].
        assert (Hs : (size a = S (size x + fold_right (fun y n => size y + n) 0 l))%nat) by (destruct a; cbn in La; try discriminate; injection La as ->; reflexivity).
        eapply EQ_cons; [eassumption|eassumption|apply IH; [lia|exact H1]|apply IH; [cbn [size]; destruct x; cbn [size] in Hs; lia|exact H2]].
      * exfalso. destruct a; cbn in La; try discriminate La; destruct b; cbn in Lb; try discriminate Lb; discriminate H.
      * exfalso. destruct b; cbn in Lb; try discriminate Lb; destruct a; cbn in La; try discriminate La; discriminate H.
      * destruct a; cbn in Ia, Sa, La; try discriminate; destruct b; cbn in Ib, Sb, Lb; try discriminate; cbn [py_eq int_of str_of] in H; try discriminate H.
        -- apply EQ_none.
        -- apply teqb_eq in H as <-. apply EQ_float.
        -- apply EQ_trim. apply IH; [cbn [size] in Hn; lia|exact H].
        -- apply EQ_lazy. apply IH; [cbn [size] in Hn; lia|exact H].
Qed.
Lemma py_eq_spec a b : reflect (equal a b) (py_eq a b).
Proof.
  destruct (py_eq a b) eqn:E; constructor; [eapply py_eq_sound; [apply Nat.le_refl|exact E]|]. intros H. revert E. apply not_false_iff_true.
  induction H as [a b z Ha Hb|a b t Ha Hb| |t|a b Ha Hb|a b x y l m Ha Hb _ IHx _ IHl|x i y j _ IH|x y _ IH].
  - destruct Ha; inversion Hb; subst; cbn [py_eq int_of]; try apply Z.eqb_refl; reflexivity.
  - destruct a; try discriminate Ha; destruct b; try discriminate Hb; cbn in Ha, Hb; injection Ha as Ha; injection Hb as Hb; subst; cbn [py_eq int_of str_of]; apply teqb_refl || (rewrite Hb; apply teqb_refl) || (rewrite <- Hb; apply teqb_refl).
  - reflexivity.
  - cbn [py_eq int_of str_of]. apply teqb_refl.
  - rewrite (py_eq_list a b [] [] Ha Hb). reflexivity.
  - rewrite (py_eq_list a b _ _ Ha Hb), IHx, IHl. reflexivity.
  - exact IH.
  - exact IH.
Qed.

(** ** The functions *)
Lemma index_first v l : first_at l v (match index_of v l with Some i => Z.of_nat i | None => -1 end).
Proof.
  assert (K : match index_of v l with
    | Some i => exists b x a, l = b ++ x :: a /\ length b = i /\ equal x v /\ Forall (fun y => ~ equal y v) b
    | None => Forall (fun y => ~ equal y v) l end).
  { induction l as [|x l IH]; [constructor|]. cbn [index_of]. destruct (py_eq_spec x v) as [E|E].
    - exists [], x, l. repeat split; [exact E|constructor].
    - destruct (index_of v l) as [i|]; cbn [option_map].
      + destruct IH as (b & y & a & -> & <- & Hy & Hb). exists (x :: b), y, a. repeat split; [exact Hy|]. constructor; assumption.
      + constructor; assumption. }
  destruct (index_of v l) as [i|].
  - destruct K as (b & x & a & -> & <- & Hx & Hb). eapply FA_at; [reflexivity|exact Hx|exact Hb].
  - apply FA_none, K.
Qed.
Lemma index_of_app v a b : index_of v (a ++ b) = match index_of v a with Some i => Some i | None => option_map (fun i => length a + i)%nat (index_of v b) end.
Proof.
  induction a as [|x a IH]; cbn [app index_of length]; [destruct (index_of v b); reflexivity|].
  destruct (py_eq x v); [reflexivity|]. rewrite IH. destruct (index_of v a); [reflexivity|]. destruct (index_of v b); reflexivity.
Qed.
Lemma index_of_some v l i : index_of v l = Some i -> exists b x a, l = b ++ x :: a /\ length b = i /\ equal x v /\ Forall (fun y => ~ equal y v) b.
Proof.
  revert i. induction l as [|x l IH]; intros i H; [discriminate H|]. cbn [index_of] in H. destruct (py_eq_spec x v) as [E|E].
  - injection H as <-. exists [], x, l. repeat split; [exact E|constructor].
  - destruct (index_of v l) as [j|]; [|discriminate H]. injection H as <-. destruct (IH j eq_refl) as (b & y & a & -> & <- & Hy & Hb).
    exists (x :: b), y, a. repeat split; [exact Hy|]. constructor; assumption.
Qed.
Lemma index_of_none v l : index_of v l = None <-> Forall (fun y => ~ equal y v) l.
Proof.
  induction l as [|x l IH]; [split; constructor|]. cbn [index_of]. destruct (py_eq_spec x v) as [E|E].
  - split; [discriminate|]. intros H. inversion H; subst. contradiction.
  - destruct (index_of v l); cbn [option_map].
    + split; [discriminate|]. intros H. inversion H; subst. apply IH in H3. discriminate H3.
    + split; [|reflexivity]. intros _. constructor; [exact E|]. apply IH. reflexivity.
Qed.
Lemma rindex_last l v s : exists i, b_rindex [NList l; v] s = Ok (NInt i, s) /\ last_at l v i.
Proof.
  unfold b_rindex, arg2. cbn [seq_of list_of]. destruct (index_of v l) as [j|] eqn:E.
  - destruct (index_of v (rev l)) as [i|] eqn:E2.
    + destruct (index_of_some _ _ _ E2) as (b & x & a & El & <- & Hx & Hb). eexists. split; [reflexivity|].
      assert (L : l = rev a ++ x :: rev b). { rewrite <- (rev_involutive l), El, rev_app_distr. cbn [rev]. rewrite <- app_assoc. reflexivity. }
      replace (Z.of_nat (length l) - 1 - Z.of_nat (length b))%Z with (Z.of_nat (length (rev a))).
      * eapply LA_at; [exact L|exact Hx|]. apply Forall_rev, Hb.
      * rewrite L at 1. rewrite app_length. cbn [length]. rewrite !rev_length. lia.
    + exfalso. apply index_of_none in E2. apply Forall_rev in E2. rewrite rev_involutive in E2. apply index_of_none in E2. congruence.
  - eexists. split; [reflexivity|]. apply LA_none, index_of_none, E.
Qed.
Lemma hashable_simple v : hashable v = true <-> simple v.
Proof.
  unfold simple. split.
  - destruct v; cbn [hashable int_of str_of]; try discriminate; intros _; eauto 6.
    + right. right. left. exists z. constructor.
    + right. right. left. destruct b; eexists; constructor.
  - intros [->|[[t ->]|[[z Hz]|[t Ht]]]]; [reflexivity|reflexivity|destruct Hz; reflexivity|].
    destruct v; cbn in Ht; try discriminate Ht; reflexivity.
Qed.
Lemma set_unique_twice u v s : set_unique v (set_unique u s) = set_unique v s.
Proof. reflexivity. Qed.
Lemma unique_run l : Forall simple l -> forall acc s, exists w, first_occurrences (y_unique s) l w /\
  unique_loop acc l s = Ok (rev acc ++ w, set_unique (y_unique s ++ w) s).
Proof.
  induction 1 as [|x l Hx _ IH]; intros acc s.
  - exists []. split; [constructor|]. cbn [unique_loop]. unfold ret. rewrite !app_nil_r. destruct s; reflexivity.
  - cbn [unique_loop]. rewrite (proj2 (hashable_simple x) Hx). cbn [negb]. unfold bind, get_st, modify.
    destruct (existsb (py_eq x) (y_unique s)) eqn:E.
    + destruct (IH acc s) as (w & H1 & H2). exists w. split; [|exact H2]. apply existsb_exists in E as (y & Hy & E).
      eapply FO_known; [exact Hy| |exact H1]. destruct (py_eq_spec x y); [assumption|discriminate E].
    + destruct (IH (x :: acc) (set_unique (y_unique s ++ [x]) s)) as (w & H1 & H2). exists (x :: w). split.
      * apply FO_new; [|exact H1]. apply Forall_forall. intros y Hy Hxy. assert (existsb (py_eq x) (y_unique s) = true); [|congruence].
        apply existsb_exists. exists y. split; [exact Hy|]. destruct (py_eq_spec x y); [reflexivity|contradiction].
      * rewrite H2. cbn [rev y_unique set_unique]. rewrite <- !app_assoc. reflexivity.
Qed.
Lemma nth_zrange n : forall a d i v, nth_error (zrange n a d) i = Some v -> v = NInt (a + Z.of_nat i * d).
Proof.
  induction n as [|n IH]; intros a d [|i] v H; cbn [zrange nth_error] in H; try discriminate H.
  - injection H as <-. f_equal. lia.
  - apply IH in H. subst v. f_equal. lia.
Qed.
Lemma length_zrange n : forall a d, length (zrange n a d) = n.
Proof. induction n as [|n IH]; intros a d; cbn [zrange length]; [reflexivity|]. rewrite IH. reflexivity. Qed.
Lemma range_counts a b d : d <> 0%Z -> (d < 0 -> a >= b)%Z -> (0 < d -> a <= b)%Z -> counts a b d (py_range a b d).
Proof.
  intros Hd Hn Hp. unfold counts, py_range. split; [intros i v; apply nth_zrange|]. rewrite length_zrange. unfold range_len.
  destruct (Z.ltb_spec 0 d) as [H|H].
  - left. split; [lia|]. pose proof (Z.div_mod (b - a + d - 1) d ltac:(lia)) as E. pose proof (Z.mod_pos_bound (b - a + d - 1) d ltac:(lia)) as B.
    set (q := ((b - a + d - 1) / d)%Z) in *. assert (0 <= q)%Z by (apply Z.div_pos; lia). split.
    + intros i Hi. nia.
    + rewrite Z2Nat.id by assumption. nia.
  - right. split; [lia|]. pose proof (Z.div_mod (a - b - d - 1) (- d) ltac:(lia)) as E. pose proof (Z.mod_pos_bound (a - b - d - 1) (- d) ltac:(lia)) as B.
    set (q := ((a - b - d - 1) / - d)%Z) in *. assert (0 <= q)%Z by (apply Z.div_pos; lia). split.
    + intros i Hi. nia.
    + rewrite Z2Nat.id by assumption. nia.
Qed.
(** an empty range *)
Lemma range_empty a b d : (0 < d -> b <= a)%Z -> (d < 0 -> a <= b)%Z -> d <> 0%Z -> py_range a b d = [].
Proof.
  intros Hp Hn Hd. unfold py_range, range_len. destruct (Z.ltb_spec 0 d) as [H|H].
  - replace (Z.to_nat ((b - a + d - 1) / d)) with O; [reflexivity|].
    assert ((b - a + d - 1) / d <= 0)%Z by (apply Z.lt_succ_r; apply Z.div_lt_upper_bound; lia). lia.
  - replace (Z.to_nat ((a - b - d - 1) / - d)) with O; [reflexivity|].
    assert ((a - b - d - 1) / - d <= 0)%Z by (apply Z.lt_succ_r; apply Z.div_lt_upper_bound; lia). lia.
Qed.

(** ** Calls *)
Section Calls.
Variables (ec : ectx) (parse : text -> M (list node)).
Notation ev := (yueval ec parse).
Notation fin := (finishes ec parse).
Notation evs := (evals ec parse).
Lemma lookup_unknown e k : unknown e k -> lookup e k = None.
Proof.
  induction 1 as [|f e Hf _ IH]; [reflexivity|]. cbn [lookup]. rewrite (proj2 (dict_get_none f k) Hf). exact IH.
Qed.
Theorem call_builtin a name f args vs e s e2 s2 file pos v s3 : s_txt a = name -> standard ec e name -> dict_get name core = Some f ->
  evs (NList args) e s (NList vs) e2 s2 -> is_term (NList vs) = true -> f vs s2 = Ok (v, s3) ->
  evs (NApply (NVar (RList []) a) args [] file pos) e s (builtin_result v) e2 s3.
Proof.
  intros <- [Hu Hb] Hf Ha Ht Hv. apply evals_fin.
  assert (Hfn : evs (NVar (RList []) a) e s (NBuiltin a) e s).
  { exists 1%nat. cbn [yueval eval_body]. unfold eval_var, ebind, get_env. rewrite (lookup_unknown e _ Hu).
    unfold find_builtin, lift_m, bind, get_st, ret. rewrite Hb, Hf. reflexivity. }
  rewrite (apply_fin ec parse _ args [] file pos e s _ e s _ e2 s2 _ Hfn Ha). unfold apply_rest. cbn [as_closure named_unexpected].
  split; [discriminate|]. exists O. unfold apply_builtin, find_builtin, ebind, lift_m, bind, get_st, ret. rewrite Hb, Hf. cbn [option_map].
  unfold apply_function. rewrite Ht. unfold ebind, lift_m. rewrite Hv. reflexivity.
Qed.
End Calls.
