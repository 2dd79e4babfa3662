(** Order of texts, copies, elements (proofs only). *)
From Coq Require Import List NArith ZArith Bool String Lia ZifyBool ZifyNat ZifyN.
From Verif Require Import PyStr Ast Lex Parse Eval Builtin Builtin2 PyStrFacts LexSpec EnvSpec EvalSpec EvalCases BuiltinSpec BuiltinFacts TextSpec TextFacts TextCases MoreSpec QuoteFacts.
Import ListNotations.
Open Scope list_scope.

Lemma before_cons c t u : before t u -> before (c :: t) (c :: u).
Proof.
  intros [(d & r & ->)|(w & a & b & r & s & -> & -> & H)]; [left; exists d, r; reflexivity|].
  right. exists (c :: w), a, b, r, s. auto.
Qed.
Lemma before_uncons c t u : before (c :: t) (c :: u) -> before t u.
Proof.
  intros [(d & r & E)|(w & a & b & r & s & E1 & E2 & H)].
  - cbn [app] in E. injection E as ->. left. exists d, r. reflexivity.
  - destruct w as [|x w]; cbn [app] in E1, E2.
    + injection E1 as -> ->. injection E2 as <- <-. lia.
    + injection E1 as -> ->. injection E2 as ->. right. exists w, a, b, r, s. auto.
Qed.
Lemma before_nil t : ~ before t [].
Proof. intros [(d & r & E)|(w & a & b & r & s & _ & E & _)]; [destruct t; discriminate|destruct w; discriminate]. Qed.
Lemma text_cmp_spec t : forall u, match text_cmp t u with Lt => before t u /\ t <> u /\ ~ before u t | Eq => t = u /\ ~ before t u /\ ~ before u t | Gt => before u t /\ t <> u /\ ~ before t u end.
Proof.
  induction t as [|c t IH]; intros [|d u]; cbn [text_cmp].
  - split; [reflexivity|]. split; apply before_nil.
  - split; [left; exists d, u; reflexivity|]. split; [discriminate|apply before_nil].
  - split; [left; exists c, t; reflexivity|]. split; [discriminate|apply before_nil].
  - assert (L : forall x y a b, (x < y)%N -> before (x :: a) (y :: b) /\ ~ before (y :: b) (x :: a)).
    { intros x y a b H. split; [right; exists [], x, y, a, b; auto|]. intros [(e & r & E)|(w & p & q & r & s & E1 & E2 & H')].
      - injection E as E0 E. lia.
      - destruct w as [|z w]; cbn [app] in E1, E2; injection E1 as E1 _; injection E2 as E2 _; lia. }
    destruct (N.compare_spec c d) as [<- |H|H].
    + specialize (IH u). destruct (text_cmp t u).
      * destruct IH as (-> & H1 & H2). split; [reflexivity|]. split; intros H; apply before_uncons in H; auto.
      * destruct IH as (H1 & H2 & H3). split; [apply before_cons, H1|]. split; [congruence|]. intros H; apply before_uncons in H; auto.
      * destruct IH as (H1 & H2 & H3). split; [apply before_cons, H1|]. split; [congruence|]. intros H; apply before_uncons in H; auto.
    + destruct (L c d t u H) as [H1 H2]. split; [exact H1|]. split; [intros E; injection E as E _; lia|exact H2].
    + destruct (L d c u t H) as [H1 H2]. split; [exact H1|]. split; [intros E; injection E as E _; lia|exact H2].
Qed.
Lemma before_order : (forall t, ~ before t t) /\ (forall t u, before t u \/ t = u \/ before u t) /\ (forall t u v, before t u -> before u v -> before t v).
Proof.
  split; [|split].
  - intros t. assert (H := text_cmp_spec t t). destruct (text_cmp t t); tauto.
  - intros t u. assert (H := text_cmp_spec t u). destruct (text_cmp t u); tauto.
  - induction t as [|c t IH]; intros [|d u] [|e v] H1 H2; try (apply before_nil in H1; contradiction); try (apply before_nil in H2; contradiction).
    + left. exists e, v. reflexivity.
    + assert (L : forall x y a b, before (x :: a) (y :: b) -> (x < y)%N \/ x = y /\ before a b).
      { intros x y a b [(z & r & E)|(w & p & q & r & s & E1 & E2 & H')].
        - cbn [app] in E. injection E as -> ->. right. split; [reflexivity|]. left. exists z, r. reflexivity.
        - destruct w as [|z w]; cbn [app] in E1, E2; injection E1 as -> ->; injection E2 as -> ->; [left; exact H'|]. right. split; [reflexivity|]. right. exists w, p, q, r, s. auto. }
      apply L in H1 as [H1|[-> H1]]; apply L in H2 as [H2|[-> H2]].
      * right. exists [], c, e, t, v. repeat split. lia.
      * right. exists [], c, e, t, v. auto.
      * right. exists [], d, e, t, v. auto.
      * apply before_cons. eapply IH; eassumption.
Qed.

Section Functions.
Variable ec : ectx.
Lemma call_text_order name (f : comparison -> node) x y t u : offers ec name -> (forall cx input, dict_get name (core ++ more cx input) = Some (b_order f)) ->
  string_value x t -> string_value y u -> call_yields ec name [x; y] (builtin_result (f (text_cmp t u))).
Proof.
  unfold string_value. intros Ho Hf Hx Hy.
  apply (call_offered ec _ _ _ _ Ho Hf); [cbn [is_term forallb]; rewrite (string_term x t Hx), (string_term y u Hy); reflexivity|].
  intros st. unfold b_order, arg2. rewrite (string_int x t Hx), Hx, Hy. reflexivity.
Qed.
Lemma call_texts_ordered x y t u : offers ec (lit "lt") -> offers ec (lit "le") -> offers ec (lit "gt") -> offers ec (lit "ge") -> offers ec (lit "cmp") -> string_value x t -> string_value y u ->
  exists l le g ge c, call_yields ec (lit "lt") [x; y] (NInt l) /\ call_yields ec (lit "le") [x; y] (NInt le) /\
    call_yields ec (lit "gt") [x; y] (NInt g) /\ call_yields ec (lit "ge") [x; y] (NInt ge) /\ call_yields ec (lit "cmp") [x; y] (NInt c) /\
    (l = 1 /\ before t u \/ l = 0 /\ ~ before t u)%Z /\ (le = 0 /\ before u t \/ le = 1 /\ ~ before u t)%Z /\
    (g = 1 /\ before u t \/ g = 0 /\ ~ before u t)%Z /\ (ge = 0 /\ before t u \/ ge = 1 /\ ~ before t u)%Z /\
    (c = -1 /\ before t u \/ c = 0 /\ t = u \/ c = 1 /\ before u t)%Z.
Proof.
  intros H1 H2 H3 H4 H5 Hx Hy.
  pose proof (call_text_order _ _ x y t u H1 ltac:(reflexivity) Hx Hy) as K1. pose proof (call_text_order _ _ x y t u H2 ltac:(reflexivity) Hx Hy) as K2.
  pose proof (call_text_order _ _ x y t u H3 ltac:(reflexivity) Hx Hy) as K3. pose proof (call_text_order _ _ x y t u H4 ltac:(reflexivity) Hx Hy) as K4.
  pose proof (call_text_order _ _ x y t u H5 ltac:(reflexivity) Hx Hy) as K5.
  pose proof (text_cmp_spec t u) as S. destruct (text_cmp t u); cbn [builtin_result str_of] in K1, K2, K3, K4, K5;
    do 5 eexists; (split; [exact K1|]); (split; [exact K2|]); (split; [exact K3|]); (split; [exact K4|]); (split; [exact K5|]); destruct S as (S1 & S2 & S3); auto 10.
Qed.

(** ** Copies *)
Lemma copies_spec {A} (l : list A) n : copies l n (List.concat (repeat l (Z.to_nat n))).
Proof.
  destruct (Z.le_gt_cases n 0) as [H|H]; [replace (Z.to_nat n) with 0%nat by lia; constructor; exact H|].
  rewrite <- (Z2Nat.id n) at 1 by lia. clear H. generalize (Z.to_nat n). clear n. intros n. induction n as [|n IH]; [constructor; lia|].
  cbn [repeat List.concat]. replace (Z.of_nat (S n)) with (Z.of_nat n + 1)%Z by lia. apply CP_more; [lia|exact IH].
Qed.
Lemma call_copies_text x t w n : offers ec (lit "mul") -> string_value x t -> int_value w n ->
  exists u, copies t n u /\ call_yields ec (lit "mul") [x; w] (NRaw u) /\ call_yields ec (lit "mul") [w; x] (NRaw u).
Proof.
  unfold string_value. intros Ho Hx Hw. destruct (int_value_of w n Hw) as [W1 W2]. exists (List.concat (repeat t (Z.to_nat n))). split; [apply copies_spec|]. split.
  - apply (call_offered ec _ b_mul _ (NRaw (List.concat (repeat t (Z.to_nat n)))) Ho); [reflexivity|cbn [is_term forallb]; rewrite (string_term x t Hx), W2; reflexivity|].
    intros st. unfold b_mul, arg2. rewrite (string_int x t Hx), W1. unfold on_seq. rewrite (string_seq x t Hx). reflexivity.
  - apply (call_offered ec _ b_mul _ (NRaw (List.concat (repeat t (Z.to_nat n)))) Ho); [reflexivity|cbn [is_term forallb]; rewrite (string_term x t Hx), W2; reflexivity|].
    intros st. unfold b_mul, arg2. rewrite (string_int x t Hx), W1. unfold on_seq. rewrite (string_seq x t Hx). reflexivity.
Qed.
Lemma call_copies_list l w n : offers ec (lit "mul") -> is_term (NList l) = true -> int_value w n ->
  exists u, copies l n u /\ call_yields ec (lit "mul") [NList l; w] (NList u) /\ call_yields ec (lit "mul") [w; NList l] (NList u).
Proof.
  intros Ho Hl Hw. destruct (int_value_of w n Hw) as [W1 W2]. cbn [is_term] in Hl. exists (List.concat (repeat l (Z.to_nat n))). split; [apply copies_spec|]. split.
  - apply (call_offered ec _ b_mul _ (NList (List.concat (repeat l (Z.to_nat n)))) Ho); [reflexivity|cbn [is_term forallb]; rewrite Hl, W2; reflexivity|].
    intros st. unfold b_mul, arg2. rewrite W1. reflexivity.
  - apply (call_offered ec _ b_mul _ (NList (List.concat (repeat l (Z.to_nat n)))) Ho); [reflexivity|cbn [is_term forallb]; rewrite Hl, W2; reflexivity|].
    intros st. unfold b_mul, arg2. rewrite W1. reflexivity.
Qed.

(** ** Occurrence *)
Lemma call_contains_text x y t p : offers ec (lit "contains") -> string_value x t -> string_value y p ->
  exists z, call_yields ec (lit "contains") [x; y] (NInt z) /\ (z = 1%Z /\ (exists i, occurs_at p t i) \/ z = 0%Z /\ forall i, ~ occurs_at p t i).
Proof.
  unfold string_value. intros Ho Hx Hy. exists (match find_sub p t with Some _ => 1 | None => 0 end)%Z. split.
  - assert (K : call_yields ec (lit "contains") [x; y] (builtin_result (NBool (match find_sub p t with Some _ => true | None => false end)))).
    { apply (call_offered ec _ b_contains _ _ Ho); [reflexivity|cbn [is_term forallb]; rewrite (string_term x t Hx), (string_term y p Hy); reflexivity|].
      intros st. unfold b_contains, arg2. rewrite (string_seq x t Hx), Hy. reflexivity. }
    destruct (find_sub p t); exact K.
  - pose proof (find_first p t) as F. destruct (find_sub p t) as [i|]; inversion F as [k Ho' Hm Hk|Hn Hk]; try lia; [left; split; [reflexivity|exists k; exact Ho']|right; split; [reflexivity|exact Hn]].
Qed.
Lemma call_contains_list l v : offers ec (lit "contains") -> is_term (NList [NList l; v]) = true ->
  exists z, call_yields ec (lit "contains") [NList l; v] (NInt z) /\ (z = 1%Z /\ Exists (fun x => equal x v) l \/ z = 0%Z /\ Forall (fun x => ~ equal x v) l).
Proof.
  intros Ho Ht. exists (if existsb (fun x => py_eq x v) l then 1 else 0)%Z. split.
  - assert (K : call_yields ec (lit "contains") [NList l; v] (builtin_result (NBool (existsb (fun x => py_eq x v) l)))).
    { apply (call_offered ec _ b_contains _ _ Ho); [reflexivity|exact Ht|]. intros st. reflexivity. }
    destruct (existsb _ l); exact K.
  - clear Ht. induction l as [|x l IH]; [right; split; [reflexivity|constructor]|]. cbn [existsb]. destruct (py_eq_spec x v) as [E|E]; cbn [orb].
    + left. split; [reflexivity|left; exact E].
    + destruct IH as [[H1 H2]|[H1 H2]]; [left; split; [exact H1|right; exact H2]|right; split; [exact H1|constructor; assumption]].
Qed.

(** ** Elements *)
Lemma item_spec {A} (l : list A) i x : item_at l i x -> item l i = Some x.
Proof.
  intros (a & b & -> & H). assert (E : forall m, m = Z.of_nat (List.length a) -> nth_error (a ++ x :: b) (Z.to_nat m) = Some x).
  { intros m ->. rewrite Nat2Z.id, nth_error_app2 by lia. rewrite Nat.sub_diag. reflexivity. }
  unfold item. destruct H as [-> | ->].
  - replace (Z.of_nat (List.length a) <? 0)%Z with false by lia. cbv zeta. replace (Z.of_nat (List.length a) <? 0)%Z with false by lia. apply E. reflexivity.
  - cbn [List.length]. replace (- Z.of_nat (S (List.length b)) <? 0)%Z with true by lia. cbv zeta. rewrite app_length. cbn [List.length].
    replace (- Z.of_nat (S (List.length b)) + Z.of_nat (List.length a + S (List.length b)) <? 0)%Z with false by lia. apply E. lia.
Qed.
Lemma call_item_text x t w i c : offers ec (lit "getitem") -> string_value x t -> int_value w i -> item_at t i c -> call_yields ec (lit "getitem") [x; w] (NRaw [c]).
Proof.
  unfold string_value. intros Ho Hx Hw Hi. destruct (int_value_of w i Hw) as [W1 W2].
  apply (call_offered ec _ b_getitem _ (NRaw [c]) Ho); [reflexivity|cbn [is_term forallb]; rewrite (string_term x t Hx), W2; reflexivity|].
  intros st. unfold b_getitem, arg2. rewrite (string_seq x t Hx), W1, (item_spec t i c Hi). reflexivity.
Qed.
Lemma call_item_list l w i x : offers ec (lit "getitem") -> is_term (NList l) = true -> int_value w i -> item_at l i x ->
  (forall t, string_value x t -> call_yields ec (lit "getitem") [NList l; w] (NRaw t)) /\
  (forall z, int_value x z -> call_yields ec (lit "getitem") [NList l; w] (NInt z)) /\
  (forall m, x = NList m -> call_yields ec (lit "getitem") [NList l; w] x).
Proof.
  intros Ho Hl Hw Hi. destruct (int_value_of w i Hw) as [W1 W2]. cbn [is_term] in Hl.
  assert (K : call_yields ec (lit "getitem") [NList l; w] (builtin_result x)).
  { apply (call_offered ec _ b_getitem _ x Ho); [reflexivity|cbn [is_term forallb]; rewrite Hl, W2; reflexivity|].
    intros st. unfold b_getitem, arg2. rewrite W1. change (seq_of (NList l)) with (Some (SeqL l)). cbn iota. rewrite (item_spec l i x Hi). reflexivity. }
  split; [|split].
  - unfold string_value. intros t Ht. destruct x; cbn [str_of] in Ht; try discriminate Ht; cbn [builtin_result str_of] in K; injection Ht as <-; exact K.
  - intros z Hz. destruct Hz; exact K.
  - intros m ->. exact K.
Qed.
Lemma call_concat_list l m : offers ec (lit "concat") -> offers ec (lit "add") -> is_term (NList l) = true -> is_term (NList m) = true ->
  call_yields ec (lit "concat") [NList l; NList m] (NList (l ++ m)) /\ call_yields ec (lit "add") [NList l; NList m] (NList (l ++ m)).
Proof.
  intros H1 H2 Hl Hm. cbn [is_term] in Hl, Hm. split.
  - apply (call_offered ec _ b_concat _ (NList (l ++ m)) H1); [reflexivity|cbn [is_term forallb]; rewrite Hl, Hm; reflexivity|reflexivity].
  - apply (call_offered ec _ b_add _ (NList (l ++ m)) H2); [reflexivity|cbn [is_term forallb]; rewrite Hl, Hm; reflexivity|reflexivity].
Qed.
Lemma call_concat_text x y t u : offers ec (lit "concat") -> offers ec (lit "add") -> string_value x t -> string_value y u ->
  call_yields ec (lit "concat") [x; y] (NRaw (t ++ u)) /\ call_yields ec (lit "add") [x; y] (NRaw (t ++ u)).
Proof.
  unfold string_value. intros H1 H2 Hx Hy. split.
  - apply (call_offered ec _ b_concat _ (NRaw (t ++ u)) H1); [reflexivity|cbn [is_term forallb]; rewrite (string_term x t Hx), (string_term y u Hy); reflexivity|].
    intros st. unfold b_concat, arg2. rewrite (string_seq x t Hx), (string_seq y u Hy). reflexivity.
  - apply (call_offered ec _ b_add _ (NRaw (t ++ u)) H2); [reflexivity|cbn [is_term forallb]; rewrite (string_term x t Hx), (string_term y u Hy); reflexivity|].
    intros st. unfold b_add, arg2. rewrite (string_int x t Hx), (string_seq x t Hx), (string_seq y u Hy). reflexivity.
Qed.
End Functions.

(** ** Cases *)
Lemma order_cases :
  call1 "lt" [txt "ab"; txt "abc"] (NInt 1) /\ call1 "lt" [txt "b"; txt "abc"] (NInt 0) /\ call1 "ge" [txt "b"; txt "abc"] (NInt 1) /\ call1 "cmp" [txt "Z"; txt "a"] (NInt (-1)) /\
  call1 "mul" [txt "ab"; NInt 3] (NRaw (lit "ababab")) /\ call1 "mul" [NInt (-1); NList [NInt 1]] (NList []) /\
  call1 "contains" [txt "banana"; txt "nan"] (NInt 1) /\ call1 "contains" [NList [NInt 1; txt "a"]; txt "b"] (NInt 0) /\
  call1 "getitem" [NList [NInt 1; txt "a"]; NInt (-1)] (NRaw (lit "a")) /\ call1 "getitem" [txt "abc"; NInt 0] (NRaw (lit "a")) /\
  call1 "concat" [NList [NInt 1]; NList [NInt 2]] (NList [NInt 1; NInt 2]).
Proof. unfold call1; repeat split; run 9%nat. Qed.
Lemma order_offers : Forall (fun n => offers ec1 (lit n)) ["lt"; "le"; "gt"; "ge"; "cmp"; "mul"; "contains"; "getitem"; "concat"; "add"]%string.
Proof. repeat constructor; exists ctx0, None; intros im; reflexivity. Qed.
Lemma item_case : item_at (lit "abc") (-3) 97%N /\ item_at (lit "abc") 2 99%N.
Proof. split; [exists [], (lit "bc")|exists (lit "ab"), []]; split; [reflexivity|right; reflexivity|reflexivity|left; reflexivity]. Qed.

(** ** numbers as texts; signs and truth *)
Section Numbers.
Variable ec : ectx.
Lemma call_number_texts z : offers ec (lit "str") -> offers ec (lit "unq") -> offers ec (lit "q") -> offers ec (lit "qs") -> offers ec (lit "strlen") ->
  exists sg ds, (sg = [45%N] /\ z < 0 \/ sg = [] /\ 0 <= z)%Z /\ ds <> [] /\ Forall decimal_digit ds /\ value 10 ds = Z.abs z /\
    call_yields ec (lit "str") [NInt z] (NRaw (sg ++ ds)) /\ call_yields ec (lit "unq") [NInt z] (NRaw (sg ++ ds)) /\
    call_yields ec (lit "q") [NInt z] (NRaw (34%N :: (sg ++ ds) ++ [34%N])) /\ call_yields ec (lit "qs") [NInt z] (NRaw (39%N :: (sg ++ ds) ++ [39%N])) /\
    call_yields ec (lit "strlen") [NInt z] (NInt (Z.of_nat (List.length (sg ++ ds)))).
Proof.
  intros O1 O2 O3 O4 O5. destruct (Z_text_digits z) as (sg & ds & E & Hs & Hn & Hd & V). exists sg, ds.
  assert (Vp : (0 <= value 10 ds)%Z).
  { clear - Hd. induction Hd as [|c r Hc Hr IH]; cbn [value]; [lia|]. unfold decimal_digit in Hc. unfold digit_value. replace ((48 <=? c) && (c <=? 57))%N with true by lia.
    assert (0 <= 10 ^ Z.of_nat (List.length r))%Z by (apply Z.pow_nonneg; lia). nia. }
  split; [|split; [exact Hn|split; [exact Hd|]]].
  - destruct Hs as [-> | ->]; cbn in V; [right|left]; (split; [reflexivity|]); [lia|].
    destruct z as [|p|p]; [discriminate E|exfalso|lia]. lia.
  - split; [destruct Hs as [-> | ->]; cbn in V; lia|]. rewrite <- E.
    split; [apply (call_offered ec _ b_str [NInt z] (NRaw (Z_text z)) O1); reflexivity|].
    split; [apply (call_offered_with ec _ [NInt z] (NRaw (Z_text z)) O2); [|reflexivity]; intros cx input; exists (b_unq cx); split; reflexivity|].
    split; [apply (call_offered ec _ (b_quoted 34) [NInt z] (NRaw (34%N :: Z_text z ++ [34%N])) O3); reflexivity|].
    split; [apply (call_offered ec _ (b_quoted 39) [NInt z] (NRaw (39%N :: Z_text z ++ [39%N])) O4); reflexivity|].
    apply (call_offered_with ec _ [NInt z] (NInt (Z.of_nat (List.length (Z_text z)))) O5); [|reflexivity]. intros cx input. exists (b_strlen cx). split; reflexivity.
Qed.
Lemma call_isdigit_number z : offers ec (lit "isdigit") -> exists d, call_yields ec (lit "isdigit") [NInt z] (NInt d) /\ (d = 1 /\ 0 <= z \/ d = 0 /\ z < 0)%Z.
Proof.
  intros Ho. exists (if (0 <=? z)%Z then 1 else 0)%Z. split; [|destruct (0 <=? z)%Z eqn:E; lia].
  replace (NInt (if (0 <=? z)%Z then 1 else 0)) with (builtin_result (NBool (0 <=? z)%Z)) by (destruct (0 <=? z)%Z; reflexivity).
  apply (call_offered ec _ b_isdigit [NInt z] _ Ho); reflexivity.
Qed.
Lemma call_strlen_text t : offers ec (lit "strlen") -> call_yields ec (lit "strlen") [NRaw t] (NInt (Z.of_nat (List.length t))).
Proof.
  intros Ho. apply (call_offered_with ec _ [NRaw t] (NInt (Z.of_nat (List.length t))) Ho); [|reflexivity]. intros cx input. exists (b_strlen cx). split; reflexivity.
Qed.
Lemma call_pos x z : offers ec (lit "pos") -> int_value x z -> call_yields ec (lit "pos") [x] (NInt z).
Proof.
  intros Ho Hx. destruct (int_value_of x z Hx) as [Ix Tx]. apply (call_offered ec _ (b_int1 NInt) [x] (NInt z) Ho); [reflexivity|cbn [is_term forallb]; rewrite Tx; reflexivity|].
  intros st. unfold b_int1, arg1. rewrite Ix. reflexivity.
Qed.
Lemma call_truth : offers ec (lit "truth") ->
  (forall x z, int_value x z -> exists d, call_yields ec (lit "truth") [x] (NInt d) /\ (d = 0 /\ z = 0 \/ d = 1 /\ z <> 0)%Z) /\
  (forall x t, string_value x t -> exists d, call_yields ec (lit "truth") [x] (NInt d) /\ (d = 0%Z /\ t = [] \/ d = 1%Z /\ t <> [])) /\
  (forall l, is_term (NList l) = true -> exists d, call_yields ec (lit "truth") [NList l] (NInt d) /\ (d = 0%Z /\ l = [] \/ d = 1%Z /\ l <> [])).
Proof.
  intros Ho. assert (K : forall x, is_term x = true -> call_yields ec (lit "truth") [x] (NInt (if truthy x then 1 else 0))).
  { intros x Tx. replace (NInt (if truthy x then 1 else 0)) with (builtin_result (NBool (truthy x))) by (destruct (truthy x); reflexivity).
    apply (call_offered ec _ b_truth [x] _ Ho); [reflexivity|cbn [is_term forallb]; rewrite Tx; reflexivity|reflexivity]. }
  split; [|split].
  - intros x z Hx. destruct (int_value_of x z Hx) as [Ix Tx]. eexists. split; [apply K; exact Tx|].
    destruct x; cbn [int_of] in Ix; try discriminate Ix; injection Ix as <-; cbn [truthy]; [destruct (_ =? 0)%Z eqn:E; cbn [negb]; lia|destruct b; cbn; lia].
  - intros x t Hx. pose proof (string_term x t Hx) as Tx. unfold string_value in Hx. eexists. split; [apply K; exact Tx|].
    assert (E : truthy x = match t with [] => false | _ => true end) by (destruct x; cbn [str_of] in Hx; try discriminate Hx; injection Hx as <-; reflexivity).
    rewrite E. destruct t; [left; auto|right; split; [reflexivity|discriminate]].
  - intros l Hl. eexists. split; [apply K; exact Hl|]. destruct l; cbn; [left; auto|right; split; [reflexivity|discriminate]].
Qed.
Lemma number_cases : call1 "str" [NInt (-12)] (NRaw (lit "-12")) /\ call1 "q" [NInt 7] (NRaw (lit """7""")) /\ call1 "strlen" [NInt (-12)] (NInt 3) /\
  call1 "isdigit" [NInt 0] (NInt 1) /\ call1 "isdigit" [NInt (-1)] (NInt 0) /\ call1 "strlen" [NRaw (lit "abc")] (NInt 3) /\ call1 "pos" [NInt (-3)] (NInt (-3)).
Proof. unfold call1; repeat split; run 9%nat. Qed.
Lemma number_offers : Forall (fun n => offers ec1 (lit n)) ["str"; "unq"; "q"; "qs"; "strlen"; "isdigit"; "pos"; "truth"]%string.
Proof. repeat constructor; exists ctx0, None; intros im; reflexivity. Qed.
End Numbers.
