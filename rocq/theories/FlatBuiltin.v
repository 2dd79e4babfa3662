(** The modelled built-in functions do not look at browse tables (proofs only). *)
From Coq Require Import List NArith ZArith Bool String.
From Verif Require Import PyStr Ast Lex Parse Final Eval Builtin Builtin2 FlatSpec FlatParse FlatFacts FlatEval.
Import ListNotations.
Open Scope list_scope.

Definition even (f : list node -> M node) : Prop := forall args, msim flat (f args) (f (map flat args)).
Lemma even_blind f : even f -> blind f.
Proof.
  intros H args args' s s' Ha Hs.
  assert (E : map flat args = map flat args') by (induction Ha as [|x y l m Hx Hl IH]; cbn [map]; [reflexivity|rewrite Hx, IH; reflexivity]).
  pose proof (H args s) as H1. pose proof (H args' s') as H2. rewrite E in H1. rewrite Hs in H1. rewrite H2 in H1.
  destruct (f args s) as [[x s1]|e1|], (f args' s') as [[x' s1']|e2|]; try discriminate H1.
  - assert (E1 : (flat x', flat_st s1') = (flat x, flat_st s1)) by congruence.
    pose proof (f_equal fst E1) as Ex. pose proof (f_equal snd E1) as Es. cbn [fst snd] in Ex, Es.
    apply SR_ok; [symmetry; exact Ex|symmetry; exact Es].
  - replace e2 with e1 by congruence. apply SR_err.
  - apply SR_fuel.
Qed.

Lemma seq_flat x : seq_of (flat x) = match seq_of x with Some (SeqL l) => Some (SeqL (map flat l)) | o => o end.
Proof. unfold seq_of. rewrite list_flat, str_flat. destruct (list_of x), (str_of x); reflexivity. Qed.
Lemma py_eq_flat : forall a b, py_eq (flat a) (flat b) = py_eq a b.
Proof.
  apply (node_all (fun a => forall b, py_eq (flat a) (flat b) = py_eq a b)); unfold PL; intros;
    try (destruct b; reflexivity);
    try (destruct b0; reflexivity).
  - destruct x; try exact Logic.I; intros b'; destruct b'; reflexivity.
  - destruct b; cbn [flat py_eq int_of str_of]; try reflexivity; revert l0; induction H as [|x l Hx Hl IH]; intros [|y m]; cbn [map];
      try reflexivity; rewrite Hx; f_equal; apply IH.
  - destruct b; cbn [flat py_eq int_of str_of]; try reflexivity; revert l0; induction H as [|x l Hx Hl IH]; intros [|y m]; cbn [map];
      try reflexivity; rewrite Hx; f_equal; apply IH.
  - destruct b; cbn [flat py_eq int_of str_of]; try reflexivity; apply H.
  - destruct b; cbn [flat py_eq int_of str_of]; try reflexivity; apply H.
Qed.
Lemma hashable_flat x : hashable (flat x) = hashable x.
Proof. destruct x; reflexivity. Qed.
Lemma slice_arg_flat x : slice_arg (flat x) = slice_arg x.
Proof. destruct x; reflexivity. Qed.
Lemma seq_len_flat x : seq_len (flat x) = seq_len x.
Proof. unfold seq_len. rewrite seq_flat. destruct (seq_of x) as [[l|t]|]; rewrite ?map_length; reflexivity. Qed.
Lemma index_flat v l : index_of (flat v) (map flat l) = index_of v l.
Proof. induction l as [|x l IH]; cbn [index_of map]; [reflexivity|]. rewrite py_eq_flat, IH. reflexivity. Qed.
Lemma texts_flat l : texts_of (map flat l) = texts_of l.
Proof. induction l as [|x l IH]; cbn [texts_of map]; [reflexivity|]. rewrite str_flat, IH. reflexivity. Qed.
Lemma sum_flat l : forall z, sum_ints z (map flat l) = sum_ints z l.
Proof. induction l as [|x l IH]; intros z; cbn [sum_ints map]; [reflexivity|]. rewrite int_flat. destruct (int_of x); [apply IH|reflexivity]. Qed.
Lemma count_flat v l : Datatypes.length (filter (fun x => py_eq x (flat v)) (map flat l)) = Datatypes.length (filter (fun x => py_eq x v) l).
Proof. induction l as [|x l IH]; cbn [filter map]; [reflexivity|]. rewrite py_eq_flat. destruct (py_eq x v); cbn [Datatypes.length]; [f_equal|]; exact IH. Qed.
Lemma none_flat x {A} (a b : A) : match flat x with NNone => a | _ => b end = match x with NNone => a | _ => b end.
Proof. destruct x; reflexivity. Qed.

Ltac fl := rewrite ?str_flat, ?int_flat, ?list_flat, ?iter_flat, ?seq_flat, ?slice_arg_flat, ?seq_len_flat, ?py_eq_flat, ?truthy_flat.
Ltac bl1 :=
  match goal with
  | |- msim _ (ret _) (ret _) => apply msim_ret; reflexivity
  | |- msim _ type_error type_error => apply msim_throw
  | |- msim _ not_modelled not_modelled => apply msim_throw
  | |- msim _ (throw _) (throw _) => apply msim_throw
  | |- msim _ (match str_of ?x with _ => _ end) _ => destruct (str_of x) as [[|? [|? ?]]|]
  | |- msim _ (match int_of ?x with _ => _ end) _ => destruct (int_of x) as [?|]
  | |- msim _ (match match str_of ?x with _ => _ end with _ => _ end) _ => destruct (str_of x) as [[|? [|? ?]]|]
  | |- msim _ (if ?b then _ else _) (if ?b then _ else _) => destruct b
  end; cbn [option_map].
Ltac bl := cbn [map]; fl; cbn [option_map]; repeat bl1.
Ltac args5 args := destruct args as [|x1 [|x2 [|x3 [|x4 [|x5 args]]]]].

Lemma on_seq_even (f : forall A, list A -> list A) : (forall l, f _ (map flat l) = map flat (f _ l)) ->
  forall x, msim flat (on_seq f x) (on_seq f (flat x)).
Proof.
  intros H x. unfold on_seq. rewrite seq_flat. destruct (seq_of x) as [[l|t]|]; [|bl|bl]. apply msim_ret. cbn [flat]. rewrite H. reflexivity.
Qed.
Lemma arg1_even k : (forall x, msim flat (k x) (k (flat x))) -> even (arg1 k).
Proof. intros H args. destruct args as [|x [|y l]]; cbn [map arg1]; try apply msim_throw. apply H. Qed.
Lemma arg2_even k : (forall x y, msim flat (k x y) (k (flat x) (flat y))) -> even (arg2 k).
Proof. intros H args. destruct args as [|x [|y [|z l]]]; cbn [map arg2]; try apply msim_throw. apply H. Qed.
Lemma int2_even f : (forall a b, flat (f a b) = f a b) -> even (b_int2 f).
Proof. intros H. apply arg2_even. intros x y. fl. destruct (int_of x); [|bl]. destruct (int_of y); [|bl]. apply msim_ret. symmetry. apply H. Qed.
Lemma order_even f : (forall c, flat (f c) = f c) -> even (b_order f).
Proof.
  intros H. apply arg2_even. intros x y. fl.
  assert (G : msim flat (match str_of x, str_of y with Some a, Some b => ret (f (text_cmp a b)) | _, _ => type_error end)
    (match str_of x, str_of y with Some a, Some b => ret (f (text_cmp a b)) | _, _ => type_error end)).
  { destruct (str_of x); [|bl]. destruct (str_of y); [|bl]. apply msim_ret. symmetry. apply H. }
  destruct (int_of x); [|exact G]. destruct (int_of y); [|exact G]. apply msim_ret. symmetry. apply H.
Qed.
Lemma int1_even f : (forall a, flat (f a) = f a) -> even (b_int1 f).
Proof. intros H. apply arg1_even. intros x. fl. destruct (int_of x); [|bl]. apply msim_ret. symmetry. apply H. Qed.
Lemma checked_even f : (forall a b, msim flat (f a b) (f a b)) -> even (b_checked f).
Proof. intros H. apply arg2_even. intros x y. fl. destruct (int_of x); [|bl]. destruct (int_of y); [|bl]. apply H. Qed.
Lemma str1_even f : even (b_str1 f).
Proof. apply arg1_even. intros x. fl. destruct (str_of x); bl. Qed.
Lemma slice1_map a b l : slice1 a b (map flat l) = map flat (slice1 a b l).
Proof. unfold slice1. rewrite map_length, skipn_map, firstn_map. reflexivity. Qed.
Lemma slice_step_map a b c l : slice_step a b c (map flat l) = map flat (slice_step a b c l).
Proof.
  unfold slice_step. rewrite map_length. cbv zeta.
  match goal with |- flat_map _ ?s = map flat (flat_map _ ?s) => generalize s end. intros s.
  induction s as [|i s IH]; cbn [flat_map map]; [reflexivity|]. rewrite map_app, IH, nth_flat. f_equal.
  destruct (nth_error l _); reflexivity.
Qed.
Lemma unique_even l : forall acc, msim (map flat) (unique_loop acc l) (unique_loop (map flat acc) (map flat l)).
Proof.
  induction l as [|x l IH]; intros acc; cbn [unique_loop map].
  - apply msim_ret. symmetry. apply map_rev.
  - rewrite hashable_flat. destruct (negb (hashable x)); [apply msim_throw|]. apply msim_get. intros s.
    change (y_unique (flat_st s)) with (map flat (y_unique s)).
    replace (existsb (py_eq (flat x)) (map flat (y_unique s))) with (existsb (py_eq x) (y_unique s)).
    + destruct (existsb _ _); [apply IH|]. apply (msim_bind (fun x => x)).
      * apply msim_modify. intros s'. unfold flat_st, set_unique, set_files. cbn. rewrite map_app. reflexivity.
      * intros _. apply (IH (x :: acc)).
    + induction (y_unique s) as [|y u IHu]; cbn [existsb map]; [reflexivity|]. rewrite py_eq_flat, IHu. reflexivity.
Qed.
Lemma range_flat n : forall a b, map flat (zrange n a b) = zrange n a b.
Proof. induction n as [|n IH]; intros a b; cbn [zrange map flat]; [reflexivity|]. rewrite IH. reflexivity. Qed.
Lemma b_range_even : even b_range.
Proof.
  intros args. unfold b_range. rewrite map_map. rewrite (map_ext _ int_of int_flat).
  destruct (map int_of args) as [|[a|] [|[b|] [|[c|] [|? ?]]]]; try apply msim_throw.
  - apply msim_ret. cbn [flat]. unfold py_range. rewrite range_flat. reflexivity.
  - apply msim_ret. cbn [flat]. unfold py_range. rewrite range_flat. reflexivity.
  - destruct (c =? 0)%Z; [apply msim_throw|]. apply msim_ret. cbn [flat]. unfold py_range. rewrite range_flat. reflexivity.
Qed.
Lemma getslice_even : even b_getslice.
Proof.
  intros args. unfold b_getslice. args5 args; cbn [map]; fl; try apply msim_throw.
  - destruct (slice_arg x2); [|bl]. apply on_seq_even. apply slice1_map.
  - destruct (slice_arg x2); [|bl]. destruct (slice_arg x3); [|bl]. apply on_seq_even. apply slice1_map.
  - destruct (slice_arg x2) as [a|]; [|bl]. destruct (slice_arg x3) as [b|]; [|bl]. destruct (slice_arg x4) as [[[|[c|c|]|c]|]|]; try (bl; fail);
      apply on_seq_even; try apply slice1_map; apply slice_step_map.
Qed.
Lemma index_even : even b_index.
Proof.
  apply arg2_even. intros l v. fl. destruct (seq_of l) as [[m|t]|]; [|bl|bl]. rewrite index_flat. bl.
Qed.
Lemma rindex_even : even b_rindex.
Proof.
  apply arg2_even. intros l v. fl. destruct (seq_of l) as [[m|t]|]; [| |bl].
  - rewrite <- map_rev, !index_flat, map_length. destruct (index_of v m); [|bl]. destruct (index_of v (rev m)); bl.
  - destruct (str_of v) as [p|]; [|bl]. destruct (find_sub p t); [|bl]. destruct (find_sub p (rev t)); bl.
Qed.
Lemma add_even : even b_add.
Proof.
  apply arg2_even. intros x y. fl. assert (G : msim flat
    (match seq_of x, seq_of y with Some (SeqL a), Some (SeqL b) => ret (NList (a ++ b)) | Some (SeqS a), Some (SeqS b) => ret (NRaw (a ++ b)) | _, _ => type_error end)
    (match match seq_of x with Some (SeqL l) => Some (SeqL (map flat l)) | o => o end, match seq_of y with Some (SeqL l) => Some (SeqL (map flat l)) | o => o end with
     Some (SeqL a), Some (SeqL b) => ret (NList (a ++ b)) | Some (SeqS a), Some (SeqS b) => ret (NRaw (a ++ b)) | _, _ => type_error end)).
  { destruct (seq_of x) as [[a|a]|], (seq_of y) as [[b|b]|]; try (bl; fail). apply msim_ret. cbn [flat]. rewrite map_app. reflexivity. }
  destruct (int_of x); [|exact G]. destruct (int_of y); [bl|exact G].
Qed.

Lemma copies_map n l : List.concat (repeat (map flat l) n) = map flat (List.concat (repeat l n)).
Proof. induction n as [|n IH]; cbn [repeat List.concat map]; [reflexivity|]. rewrite map_app, IH. reflexivity. Qed.
Lemma mul_even : even b_mul.
Proof.
  apply arg2_even. intros x y. fl. destruct (int_of x), (int_of y); [bl| | |bl]; apply on_seq_even; intros l; apply copies_map.
Qed.
Lemma concat_even : even b_concat.
Proof.
  apply arg2_even. intros x y. fl. destruct (seq_of x) as [[a|a]|], (seq_of y) as [[b|b]|]; try (bl; fail). apply msim_ret. cbn [flat]. rewrite map_app. reflexivity.
Qed.
Lemma getitem_even : even b_getitem.
Proof.
  apply arg2_even. intros l i. fl. destruct (seq_of l) as [[m|t]|]; [| |bl].
  - destruct (int_of i) as [z|]; [|bl]. unfold item. rewrite map_length. cbv zeta. generalize (if (z <? 0)%Z then (z + Z.of_nat (List.length m))%Z else z). intros k.
    destruct (k <? 0)%Z; [bl|]. rewrite nth_flat. destruct (nth_error m (Z.to_nat k)); bl.
  - destruct (int_of i) as [z|]; [|bl]. destruct (item t z); bl.
Qed.
Lemma contains_even : even b_contains.
Proof.
  apply arg2_even. intros l v. fl. destruct (seq_of l) as [[m|t]|]; [| |bl].
  - replace (existsb (fun x => py_eq x (flat v)) (map flat m)) with (existsb (fun x => py_eq x v) m); [bl|].
    induction m as [|y u IHu]; cbn [existsb map]; [reflexivity|]. rewrite py_eq_flat, IHu. reflexivity.
  - destruct (str_of v) as [p|]; bl.
Qed.

Lemma core_even name f : dict_get name core = Some f -> even f.
Proof.
  unfold core. cbn [dict_get]. intros E.
  repeat match type of E with (if ?c then _ else _) = _ => destruct c; [inversion E; subst f; clear E|] end; try discriminate E.
  - apply arg1_even, on_seq_even. intros l. apply firstn_map.
  - apply arg1_even, on_seq_even. intros l. apply skipn_map.
  - apply arg1_even, on_seq_even. intros l. cbn beta. rewrite map_rev. reflexivity.
  - apply arg1_even. intros x. fl. destruct (seq_len x); bl.
  - intros args. apply msim_ret; reflexivity.
  - apply arg1_even. intros x. fl. destruct (list_of x); bl.
  - apply arg1_even. intros x. bl.
  - apply arg1_even. intros x. bl.
  - apply index_even.
  - apply rindex_even.
  - apply b_range_even.
  - apply arg1_even. intros x. fl. destruct (py_iter x) as [l|]; cbn [option_map]; [|bl].
    apply (msim_bind (map flat)); [apply (unique_even l [])|]. intros m. bl.
  - apply getslice_even.
  - apply add_even.
  - apply int2_even. reflexivity.
  - apply mul_even.
  - apply order_even. reflexivity.
  - apply order_even. reflexivity.
  - apply order_even. reflexivity.
  - apply order_even. reflexivity.
  - apply arg2_even. intros x y. bl.
  - apply arg2_even. intros x y. bl.
  - apply arg1_even. intros x. bl.
  - intros args. destruct args; [apply msim_ret; reflexivity|apply msim_throw].
  - intros args. destruct args; [apply msim_ret; reflexivity|apply msim_throw].
  - intros args. destruct args; cbn [map b_output_file]; [|bl]. apply msim_get. intros s. bl.
  - apply str1_even.
  - apply str1_even.
Qed.

Lemma strip_even f : even (b_strip_with f).
Proof.
  intros args. unfold b_strip_with, on_text. args5 args; cbn [map]; fl; try apply msim_throw.
  - destruct (str_of x1); bl.
  - destruct (str_of x1); [|bl]. destruct x2; cbn [flat str_of]; bl.
Qed.
Lemma raws_flat l : map flat (map NRaw l) = map NRaw l.
Proof. rewrite map_map. reflexivity. Qed.
Lemma split_even : even b_split.
Proof.
  intros args. unfold b_split, on_text. args5 args; cbn [map]; fl; try apply msim_throw.
  - destruct (str_of x1); [|bl]. apply msim_ret. cbn [flat]. rewrite raws_flat. reflexivity.
  - assert (G : forall y, msim flat
      (match str_of x1 with Some t => match str_of y with Some [] => throw (Exn ValueError "empty separator")
         | Some sep => ret (NList (map NRaw (split_skip sep O [] t))) | None => type_error end | None => throw (Exn AttributeError "str") end)
      (match str_of x1 with Some t => match str_of y with Some [] => throw (Exn ValueError "empty separator")
         | Some sep => ret (NList (map NRaw (split_skip sep O [] t))) | None => type_error end | None => throw (Exn AttributeError "str") end)).
    { intros y. destruct (str_of x1); [|bl]. destruct (str_of y) as [[|? ?]|]; [bl| |bl].
      apply msim_ret. cbn [flat]. rewrite raws_flat. reflexivity. }
    generalize (G x2). destruct x2; intros G'; try exact G'.
    cbn [flat]. destruct (str_of x1); [|bl]. apply msim_ret. cbn [flat]. rewrite raws_flat. reflexivity.
  - assert (G : msim flat
      (match str_of x1 with Some t => match str_of x2, int_of x3 with Some [], Some _ => throw (Exn ValueError "empty separator")
         | Some sep, Some n => ret (NList (map NRaw (if (n <? 0)%Z then split_skip sep O [] t else split_max sep (Z.to_nat n) O [] t)))
         | _, _ => not_modelled end | None => throw (Exn AttributeError "str") end)
      (match str_of x1 with Some t => match str_of x2, int_of x3 with Some [], Some _ => throw (Exn ValueError "empty separator")
         | Some sep, Some n => ret (NList (map NRaw (if (n <? 0)%Z then split_skip sep O [] t else split_max sep (Z.to_nat n) O [] t)))
         | _, _ => not_modelled end | None => throw (Exn AttributeError "str") end)).
    { destruct (str_of x1); [|bl]. destruct (str_of x2) as [[|? ?]|]; destruct (int_of x3); try (bl; fail).
      apply msim_ret. cbn [flat]. rewrite raws_flat. reflexivity. }
    revert G. destruct x2; intros G; exact G.
  - destruct x2; apply msim_throw.
  - destruct x2; apply msim_throw.
Qed.
Lemma just_even f : even (b_just f).
Proof.
  intros args. unfold b_just, on_text. args5 args; cbn [map]; fl; try apply msim_throw.
  - destruct (str_of x1); bl.
  - destruct (str_of x3) as [[|? [|? ?]]|]; try (bl; fail); destruct (str_of x1); bl.
Qed.
Lemma find_even f : even (b_find_with f).
Proof. apply arg2_even. intros x y. unfold on_text. fl. destruct (str_of x); [|bl]. destruct (str_of y); bl. Qed.
Lemma text_or_int_even (k : text -> M node) (j : Z -> M node) : (forall t, msim flat (k t) (k t)) -> (forall z, msim flat (j z) (j z)) ->
  even (arg1 (fun x => match x, str_of x with _, Some t => k t | NInt z, None => j z | _, None => not_modelled end)).
Proof. intros Hk Hj. apply arg1_even. intros x. destruct x; cbn [flat str_of]; try apply Hk; try apply Hj; bl. Qed.

Lemma more_even cx input name f : dict_get name (more cx input) = Some f -> even f.
Proof.
  unfold more. cbn [dict_get]. intros E.
  repeat match type of E with (if ?c then _ else _) = _ => destruct c; [inversion E; subst f; clear E|] end; try discriminate E.
  - apply str1_even.
  - apply str1_even.
  - apply strip_even.
  - apply strip_even.
  - apply strip_even.
  - apply split_even.
  - intros args. unfold b_join, on_text. args5 args; cbn [map]; fl; try apply msim_throw.
    + destruct (py_iter x1) as [l1|]; cbn [option_map]; [|bl]. rewrite texts_flat. destruct (texts_of l1); bl.
    + destruct (str_of x2); [|bl]. destruct (py_iter x1) as [l1|]; cbn [option_map]; [|bl]. rewrite texts_flat. destruct (texts_of l1); bl.
  - intros args. unfold b_replace, on_text. args5 args; cbn [map]; fl; try apply msim_throw.
    + destruct (str_of x1); [|bl]. destruct (str_of x2) as [[|? ?]|], (str_of x3); bl.
    + destruct (str_of x1); [|bl]. destruct (str_of x2) as [[|? ?]|], (str_of x3), (int_of x4); bl.
  - apply arg2_even. intros l v. fl. destruct (seq_of l) as [[m|t]|]; [rewrite count_flat; bl| |bl].
    destruct (str_of v) as [[|? ?]|]; bl.
  - apply find_even.
  - apply find_even.
  - apply just_even.
  - apply just_even.
  - apply arg2_even. intros x y. fl. destruct (str_of x), (int_of y); bl.
  - intros args. unfold b_center, on_text. args5 args; cbn [map]; fl; try apply msim_throw.
    + destruct (str_of x1); bl.
    + destruct (str_of x3) as [[|? [|? ?]]|]; try (bl; fail); destruct (str_of x1); bl.
  - intros args. unfold b_expandtabs, on_text. args5 args; cbn [map]; fl; try apply msim_throw.
    + destruct (str_of x1); bl.
    + destruct (int_of x2); [|bl]. destruct (str_of x1); bl.
  - intros args. unfold b_atoi. args5 args; cbn [map]; fl; try apply msim_throw.
    + destruct (int_of x1); [bl|]. destruct (str_of x1); [|bl]. destruct (_ && _); [|bl]. destruct (int_base _ _); bl.
    + destruct (int_of x2); [|bl]. destruct (str_of x1); [|bl]. destruct (_ && _); [|bl]. destruct (int_base _ _); bl.
  - apply int1_even. reflexivity.
  - apply int1_even. reflexivity.
  - apply int1_even. reflexivity.
  - apply int2_even. reflexivity.
  - apply int2_even. reflexivity.
  - apply int2_even. reflexivity.
  - apply checked_even. intros a b. unfold nonneg. bl.
  - apply checked_even. intros a b. unfold nonneg. bl.
  - apply checked_even. intros a b. unfold nonzero. bl.
  - apply checked_even. intros a b. unfold nonzero. bl.
  - apply order_even. reflexivity.
  - apply arg1_even. intros x. fl. destruct (list_of x); cbn [option_map]; [|bl]. rewrite sum_flat. destruct (sum_ints _ _); bl.
  - apply int1_even. reflexivity.
  - apply int1_even. reflexivity.
  - apply arg1_even. intros x. fl. destruct (int_of x); bl.
  - apply arg1_even. intros x. destruct x; cbn [flat str_of]; try apply msim_throw;
      repeat match goal with |- context [match ?t with [] => _ | _ => _ end] => destruct t as [|? [|? ?]] end; bl.
  - apply arg1_even. intros x. destruct x; cbn [flat str_of]; try apply msim_throw;
      repeat match goal with |- context [match ?t with [] => _ | _ => _ end] => destruct t end; bl.
  - apply (text_or_int_even (fun t => ret (NRaw t)) (fun z => ret (NRaw (Z_text z)))); intros; bl.
  - apply (text_or_int_even (fun t => ret (NRaw (unq cx t))) (fun z => ret (NRaw (Z_text z)))); intros; bl.
  - apply arg1_even. intros x. destruct x; cbn [flat str_of]; bl.
  - intros args. unfold b_print. bl.
  - apply (text_or_int_even (fun t => ret (NRaw (34%N :: flat_map escape_char t ++ [34%N]))) (fun z => ret (NRaw (34%N :: Z_text z ++ [34%N])))); intros; bl.
  - apply (text_or_int_even (fun t => ret (NRaw (39%N :: flat_map escape_char t ++ [39%N]))) (fun z => ret (NRaw (39%N :: Z_text z ++ [39%N])))); intros; bl.
  - intros args. destruct args; [apply msim_ret; reflexivity|apply msim_throw].
  - apply contains_even.
  - apply concat_even.
  - apply getitem_even.
  - apply arg1_even. intros x. bl.
  - apply int1_even. reflexivity.
Qed.
