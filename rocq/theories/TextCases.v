(** Calls of text and number functions, and cases (proofs only). *)
From Coq Require Import List NArith ZArith Bool String Lia ZifyBool ZifyNat ZifyN.
From Verif Require Import PyStr Ast Lex Parse Final Eval Builtin Builtin2 PyStrFacts LexSpec NumFacts EnvSpec EnvFacts EvalSpec EvalMono EvalKeep EvalPure EvalFacts EvalFacts2 EvalFacts3 EvalFacts4 EvalCases BuiltinSpec BuiltinFacts TextSpec TextFacts.
Import ListNotations.
Open Scope list_scope.

Lemma call_offered ec name f vs v : offers ec name -> (forall cx input, dict_get name (core ++ more cx input) = Some f) -> is_term (NList vs) = true ->
  (forall st, f vs st = Ok (v, st)) -> call_yields ec name vs (builtin_result v).
Proof.
  intros (cx & input & Hb) Hf Ht Hv parse a args e s e2 s2 file pos <- Hu Ha. specialize (Hf cx input). apply evals_fin.
  assert (Hfn : evals ec parse (NVar (RList []) a) e s (NBuiltin a) e s).
  { exists 1%nat. cbn [yueval eval_body]. unfold eval_var, ebind, get_env. rewrite (lookup_unknown e _ Hu).
    unfold find_builtin, lift_m, bind, get_st, ret. rewrite Hb, Hf. reflexivity. }
  rewrite (apply_fin ec parse _ args [] file pos e s _ e s _ e2 s2 _ Hfn Ha). unfold apply_rest. cbn [as_closure named_unexpected].
  split; [discriminate|]. exists O. unfold apply_builtin, find_builtin, ebind, lift_m, bind, get_st, ret. rewrite Hb, Hf. cbn [option_map].
  unfold apply_function. rewrite Ht. unfold ebind, lift_m. rewrite Hv. reflexivity.
Qed.
Lemma string_term x t : str_of x = Some t -> is_term x = true.
Proof. destruct x; cbn [str_of]; try discriminate; reflexivity. Qed.
Lemma string_int x t : str_of x = Some t -> int_of x = None.
Proof. destruct x; cbn [str_of]; try discriminate; reflexivity. Qed.
Lemma string_list x t : str_of x = Some t -> list_of x = None.
Proof. destruct x; cbn [str_of]; try discriminate; reflexivity. Qed.
Lemma string_seq x t : str_of x = Some t -> seq_of x = Some (SeqS t).
Proof. intros H. unfold seq_of. rewrite (string_list x t H), H. reflexivity. Qed.
Lemma string_none x t : str_of x = Some t -> x <> NNone.
Proof. intros H ->. discriminate H. Qed.
Lemma int_value_of x z : int_value x z -> int_of x = Some z /\ is_term x = true.
Proof. destruct 1; split; reflexivity. Qed.

Section Functions.
Variable ec : ectx.
Ltac terms := cbn [is_term forallb]; repeat match goal with H : str_of ?x = Some _ |- context [is_term ?x] => rewrite (string_term x _ H) end; reflexivity.
Lemma call_split x y t p : offers ec (lit "split") -> string_value x t -> string_value y p -> p <> [] ->
  exists l, parts p t l /\ call_yields ec (lit "split") [x; y] (NList (map NRaw l)).
Proof.
  unfold string_value. intros Ho Hx Hy Hp. destruct (parts_exist p t Hp) as [l Hl]. exists l. split; [exact Hl|].
  apply (call_offered ec _ b_split _ (NList (map NRaw l)) Ho); [reflexivity|terms|]. intros st. unfold b_split.
  destruct (parts_split p t l Hp Hl) as (E & _).
  destruct y; cbn [str_of] in Hy; try discriminate Hy; unfold on_text; rewrite Hx; cbn [str_of]; rewrite ?Hy; try (injection Hy as Hy; rewrite ?Hy);
    destruct p; try contradiction; rewrite E; reflexivity.
Qed.
Lemma call_split_words x t : offers ec (lit "split") -> string_value x t ->
  exists l, words_of t l /\ call_yields ec (lit "split") [x] (NList (map NRaw l)).
Proof.
  unfold string_value. intros Ho Hx. exists (split_space [] t). split; [apply (split_words t []); constructor|].
  apply (call_offered ec _ b_split _ (NList (map NRaw (split_space [] t))) Ho); [reflexivity|terms|]. intros st. unfold b_split, on_text. rewrite Hx. reflexivity.
Qed.
Lemma texts_of_list l ts : Forall2 string_value l ts -> texts_of l = Some ts.
Proof. induction 1 as [|x t l ts Hx _ IH]; [reflexivity|]. cbn [texts_of]. rewrite Hx, IH. reflexivity. Qed.
Lemma strings_term l ts : Forall2 string_value l ts -> forallb is_term l = true.
Proof. induction 1 as [|x t l ts Hx _ IH]; [reflexivity|]. cbn [forallb]. rewrite (string_term x t Hx), IH. reflexivity. Qed.
Lemma call_join l ts y p : offers ec (lit "join") -> Forall2 string_value l ts -> string_value y p ->
  exists t, joined p ts t /\ call_yields ec (lit "join") [NList l; y] (NRaw t).
Proof.
  unfold string_value. intros Ho Hl Hy. exists (join p ts). split; [apply joined_join|].
  apply (call_offered ec _ b_join _ (NRaw (join p ts)) Ho); [reflexivity| |].
  - cbn [is_term forallb]. rewrite (strings_term l ts Hl), (string_term y p Hy). reflexivity.
  - intros st. unfold b_join, on_text. rewrite Hy. cbn [py_iter list_of]. rewrite (texts_of_list l ts Hl). reflexivity.
Qed.
Lemma call_split_join x y z t p : offers ec (lit "split") -> offers ec (lit "join") -> string_value x t -> string_value y p -> string_value z p -> p <> [] ->
  exists v, call_yields ec (lit "split") [x; y] v /\ call_yields ec (lit "join") [v; z] (NRaw t).
Proof.
  intros H1 H2 Hx Hy Hz Hp. destruct (call_split x y t p H1 Hx Hy Hp) as (l & Hl & Hs). exists (NList (map NRaw l)). split; [exact Hs|].
  destruct (call_join (map NRaw l) l z p H2) as (u & Hu & Hj); [|exact Hz|].
  - clear. induction l; constructor; [reflexivity|assumption].
  - rewrite (joined_det p l t u (parts_join p t l Hl) Hu). exact Hj.
Qed.
Lemma call_replace x y z t p q : offers ec (lit "replace") -> string_value x t -> string_value y p -> string_value z q -> p <> [] ->
  exists l u, parts p t l /\ joined q l u /\ call_yields ec (lit "replace") [x; y; z] (NRaw u).
Proof.
  unfold string_value. intros Ho Hx Hy Hz Hp. destruct (parts_exist p t Hp) as [l Hl]. exists l, (replace p q t). split; [exact Hl|].
  split; [apply (parts_split p t l Hp Hl)|].
  apply (call_offered ec _ b_replace _ (NRaw (replace p q t)) Ho); [reflexivity|terms|]. intros st. unfold b_replace, on_text. rewrite Hx, Hy, Hz. destruct p; [contradiction|reflexivity].
Qed.
Lemma call_count x y t p : offers ec (lit "count") -> string_value x t -> string_value y p -> p <> [] ->
  exists l n, parts p t l /\ List.length l = S n /\ call_yields ec (lit "count") [x; y] (NInt (Z.of_nat n)).
Proof.
  unfold string_value. intros Ho Hx Hy Hp. destruct (parts_exist p t Hp) as [l Hl]. exists l, (count_skip p O t). split; [exact Hl|].
  destruct (parts_split p t l Hp Hl) as (_ & _ & E). split; [symmetry; exact E|].
  apply (call_offered ec _ b_count _ (NInt (Z.of_nat (count_skip p O t))) Ho); [reflexivity|terms|]. intros st. unfold b_count, arg2. rewrite (string_seq x t Hx), Hy.
  destruct p; [contradiction|reflexivity].
Qed.
Lemma call_find x y t p : offers ec (lit "find") -> string_value x t -> string_value y p ->
  exists i, first_place p t i /\ call_yields ec (lit "find") [x; y] (NInt i).
Proof.
  unfold string_value. intros Ho Hx Hy. eexists. split; [apply find_first|].
  apply (call_offered ec _ b_find _ (opt_index (find_sub p t)) Ho); [reflexivity|terms|]. intros st. unfold b_find, b_find_with, arg2, on_text. rewrite Hx, Hy. reflexivity.
Qed.
Lemma call_rfind x y t p : offers ec (lit "rfind") -> string_value x t -> string_value y p ->
  exists i, last_place p t i /\ call_yields ec (lit "rfind") [x; y] (NInt i).
Proof.
  unfold string_value. intros Ho Hx Hy. eexists. split; [apply rfind_last|].
  apply (call_offered ec _ b_rfind _ (opt_index (rfind_sub p t)) Ho); [reflexivity|terms|]. intros st. unfold b_rfind, b_find_with, arg2, on_text. rewrite Hx, Hy. reflexivity.
Qed.
Lemma strip_with_chars f x y t cs st : str_of x = Some t -> str_of y = Some cs ->
  b_strip_with f [x; y] st = Ok (NRaw (f (fun c => has_char c cs) t), st).
Proof. intros Hx Hy. unfold b_strip_with, on_text. rewrite Hx. destruct y; cbn [str_of] in Hy; try discriminate Hy; cbn [str_of]; rewrite ?Hy; try (injection Hy as ->); reflexivity. Qed.
Lemma call_strip_chars x y t cs : offers ec (lit "strip") -> offers ec (lit "lstrip") -> offers ec (lit "rstrip") -> string_value x t -> string_value y cs ->
  exists l r b, cut_left (fun c => In c cs) t l /\ cut_right (fun c => In c cs) t r /\ cut_right (fun c => In c cs) l b /\
    call_yields ec (lit "lstrip") [x; y] (NRaw l) /\ call_yields ec (lit "rstrip") [x; y] (NRaw r) /\ call_yields ec (lit "strip") [x; y] (NRaw b).
Proof.
  unfold string_value. intros H1 H2 H3 Hx Hy.
  exists (strip_left (fun c => has_char c cs) t), (strip_right (fun c => has_char c cs) t), (strip_right (fun c => has_char c cs) (strip_left (fun c => has_char c cs) t)).
  assert (Hc : forall c, has_char c cs = true <-> In c cs) by (intros c; apply has_char_In).
  split; [apply drop_while_cut, Hc|]. split; [apply strip_right_cut, Hc|]. split; [apply strip_right_cut, Hc|]. split; [|split].
  - apply (call_offered ec _ b_lstrip _ (NRaw (strip_left (fun c => has_char c cs) t)) H2); [reflexivity|terms|]. intros st. apply strip_with_chars; assumption.
  - apply (call_offered ec _ b_rstrip _ (NRaw (strip_right (fun c => has_char c cs) t)) H3); [reflexivity|terms|]. intros st. apply strip_with_chars; assumption.
  - apply (call_offered ec _ b_strip _ (NRaw (strip_right (fun c => has_char c cs) (strip_left (fun c => has_char c cs) t))) H1); [reflexivity|terms|]. intros st.
    apply (strip_with_chars (fun p s => strip_right p (strip_left p s))); assumption.
Qed.
Lemma call_strip_space x t : offers ec (lit "strip") -> offers ec (lit "lstrip") -> offers ec (lit "rstrip") -> string_value x t ->
  exists l r b, cut_left space t l /\ cut_right space t r /\ cut_right space l b /\
    call_yields ec (lit "lstrip") [x] (NRaw l) /\ call_yields ec (lit "rstrip") [x] (NRaw r) /\ call_yields ec (lit "strip") [x] (NRaw b).
Proof.
  unfold string_value. intros H1 H2 H3 Hx.
  exists (strip_left py_isspace t), (strip_right py_isspace t), (strip_right py_isspace (strip_left py_isspace t)).
  assert (Hc : forall c, py_isspace c = true <-> space c) by (intros c; reflexivity).
  split; [apply drop_while_cut, Hc|]. split; [apply strip_right_cut, Hc|]. split; [apply strip_right_cut, Hc|]. split; [|split].
  - apply (call_offered ec _ b_lstrip _ (NRaw (strip_left py_isspace t)) H2); [reflexivity|terms|]. intros st. unfold b_lstrip, b_strip_with, on_text. rewrite Hx. reflexivity.
  - apply (call_offered ec _ b_rstrip _ (NRaw (strip_right py_isspace t)) H3); [reflexivity|terms|]. intros st. unfold b_rstrip, b_strip_with, on_text. rewrite Hx. reflexivity.
  - apply (call_offered ec _ b_strip _ (NRaw (strip_right py_isspace (strip_left py_isspace t))) H1); [reflexivity|terms|]. intros st. unfold b_strip, b_strip_with, on_text. rewrite Hx. reflexivity.
Qed.
Lemma call_just x t w n y c : offers ec (lit "ljust") -> offers ec (lit "rjust") -> string_value x t -> int_value w n -> string_value y [c] ->
  exists pad, padding c t n pad /\ call_yields ec (lit "ljust") [x; w; y] (NRaw (t ++ pad)) /\ call_yields ec (lit "rjust") [x; w; y] (NRaw (pad ++ t)).
Proof.
  unfold string_value. intros H1 H2 Hx Hw Hy. exists (repeat c (Z.to_nat n - List.length t)). split; [apply repeat_padding|]. destruct (int_value_of w n Hw) as [Iw Tw]. split.
  - apply (call_offered ec _ b_ljust _ (NRaw (t ++ repeat c (Z.to_nat n - List.length t))) H1); [reflexivity|cbn [is_term forallb]; rewrite (string_term x t Hx), Tw, (string_term y _ Hy); reflexivity|].
    intros st. unfold b_ljust, b_just, on_text. rewrite Hx, Iw, Hy. reflexivity.
  - apply (call_offered ec _ b_rjust _ (NRaw (repeat c (Z.to_nat n - List.length t) ++ t)) H2); [reflexivity|cbn [is_term forallb]; rewrite (string_term x t Hx), Tw, (string_term y _ Hy); reflexivity|].
    intros st. unfold b_rjust, b_just, on_text. rewrite Hx, Iw, Hy. reflexivity.
Qed.
Lemma call_zfill x sg t w n : offers ec (lit "zfill") -> string_value x (sg ++ t) -> (sg = [43%N] \/ sg = [45%N] \/ (sg = [] /\ ~ begins_with (fun c => c = 43%N \/ c = 45%N) t)) -> int_value w n ->
  exists pad, padding 48 (sg ++ t) n pad /\ call_yields ec (lit "zfill") [x; w] (NRaw (sg ++ pad ++ t)).
Proof.
  unfold string_value. intros H1 Hx Hsg Hw. exists (repeat 48%N (Z.to_nat n - List.length (sg ++ t))). split; [apply repeat_padding|]. destruct (int_value_of w n Hw) as [Iw Tw].
  apply (call_offered ec _ b_zfill _ (NRaw (sg ++ repeat 48%N (Z.to_nat n - List.length (sg ++ t)) ++ t)) H1); [reflexivity|cbn [is_term forallb]; rewrite (string_term x _ Hx), Tw; reflexivity|].
  intros st. unfold b_zfill, arg2. rewrite Hx, Iw. unfold zfill. destruct Hsg as [-> | [-> | [-> Hn]]]; cbn [app]; [reflexivity|reflexivity|].
  destruct t as [|c r]; [rewrite app_nil_r; reflexivity|]. destruct (is_sign c) eqn:E; [|reflexivity]. exfalso. apply Hn. exists c, r. split; [reflexivity|]. unfold is_sign in E. lia.
Qed.
Lemma call_atoi x base b sg ds : offers ec (lit "atoi") -> string_value x (sg ++ ds) -> int_value base b -> (2 <= b <= 16)%Z ->
  (sg = [] \/ sg = [43%N] \/ sg = [45%N]) -> ds <> [] -> Forall (fun c => hex_digit c /\ (digit_value c < b)%Z) ds ->
  call_yields ec (lit "atoi") [x; base] (NInt (if teqb sg [45%N] then - value b ds else value b ds)).
Proof.
  unfold string_value. intros Ho Hx Hb Hr Hs Hn Hd. destruct (int_value_of base b Hb) as [Ib Tb].
  apply (call_offered ec _ b_atoi _ (NInt (if teqb sg [45%N] then - value b ds else value b ds)) Ho); [reflexivity|cbn [is_term forallb]; rewrite (string_term x _ Hx), Tb; reflexivity|].
  intros st. unfold b_atoi. rewrite Ib, Hx. replace ((2 <=? b) && (b <=? 16))%Z with true by lia. rewrite (int_base_digits b sg ds Hr Hs Hn Hd). reflexivity.
Qed.
Lemma call_str_atoi z : offers ec (lit "str") -> offers ec (lit "atoi") ->
  exists v, call_yields ec (lit "str") [NInt z] v /\ call_yields ec (lit "atoi") [v] (NInt z).
Proof.
  intros H1 H2. exists (NRaw (Z_text z)). split.
  - apply (call_offered ec _ b_str _ (NRaw (Z_text z)) H1); reflexivity.
  - apply (call_offered ec _ b_atoi _ (NInt z) H2); [reflexivity|reflexivity|]. intros st. unfold b_atoi. cbn [int_of str_of]. rewrite int_base_text. reflexivity.
Qed.
Lemma call_str z : offers ec (lit "str") -> exists ds, digits_of decimal_digit 10 (Z.abs z) ds /\ call_yields ec (lit "str") [NInt z] (NRaw ((if (z <? 0)%Z then [45%N] else []) ++ ds)).
Proof.
  intros H1. assert (V : forall p, value 10 (uint_text (Pos.to_uint p)) = Zpos p) by (intros p; rewrite <- value_of_uint, DecimalPos.Unsigned.of_to; reflexivity).
  assert (K : forall p, digits_of decimal_digit 10 (Zpos p) (uint_text (Pos.to_uint p))).
  { intros p. split; [apply uint_text_digits|]. split; [apply V|]. split; [intros E; specialize (V p); rewrite E in V; discriminate V|].
    intros r E. pose proof (pos_text_literal p) as L. rewrite E in L. exfalso. specialize (V p). rewrite E in V.
    assert (G : uint_text (Pos.to_uint p) <> 48%N :: r).
    { clear. intros E. assert (Hn : Decimal.unorm (Pos.to_uint p) = Pos.to_uint p).
      { rewrite <- (DecimalPos.Unsigned.to_of (Pos.to_uint p)), DecimalPos.Unsigned.of_to. reflexivity. }
      assert (Hne := DecimalPos.Unsigned.to_uint_nonzero p). destruct (Pos.to_uint p) as [|u|u|u|u|u|u|u|u|u|u] eqn:Eu; try discriminate E.
      change (Decimal.unorm (Decimal.D0 u)) with (Decimal.unorm u) in Hn.
      assert (Hl : (Decimal.nb_digits (Decimal.unorm u) <= Nat.max 1 (Decimal.nb_digits u))%nat).
      { clear. induction u; [cbn; lia| |cbn; lia..]. change (Decimal.unorm (Decimal.D0 u)) with (Decimal.unorm u). cbn [Decimal.nb_digits]. lia. }
      rewrite Hn in Hl. cbn in Hl. destruct u; cbn in Hn, Hl; try discriminate; try lia. apply Hne. reflexivity. }
    contradiction. }
  destruct z as [|p|p].
  - exists [48%N]. split; [|apply (call_offered ec _ b_str _ (NRaw (Z_text 0)) H1); reflexivity].
    repeat split; [constructor; [unfold decimal_digit; lia|constructor]|discriminate|]. intros r [= <-]. reflexivity.
  - exists (uint_text (Pos.to_uint p)). split; [apply K|]. apply (call_offered ec _ b_str _ (NRaw (Z_text (Zpos p))) H1); reflexivity.
  - exists (uint_text (Pos.to_uint p)). split; [apply K|]. apply (call_offered ec _ b_str _ (NRaw (Z_text (Zneg p))) H1); reflexivity.
Qed.
Lemma call_hex x z : offers ec (lit "hex") -> int_value x z -> exists ds, digits_of lower_hex_digit 16 (Z.abs z) ds /\
  call_yields ec (lit "hex") [x] (NRaw ((if (z <? 0)%Z then [45%N] else []) ++ lit "0x" ++ ds)).
Proof.
  intros Ho Hx. destruct (int_value_of x z Hx) as [Ix Tx]. destruct (in_base_digits 16 (lit "0x") z ltac:(lia)) as (ds & E & D & V & Nn & Lz). exists ds. split.
  - split; [eapply Forall_impl; [|exact D]; cbv beta; tauto|]. auto.
  - rewrite <- E. apply (call_offered ec _ b_hex _ (NRaw (in_base 16 (lit "0x") z)) Ho); [reflexivity|cbn [is_term forallb]; rewrite Tx; reflexivity|].
    intros st. unfold b_hex, b_int1, arg1. rewrite Ix. reflexivity.
Qed.
Lemma call_oct x z : offers ec (lit "oct") -> int_value x z -> exists ds, digits_of oct_digit 8 (Z.abs z) ds /\
  call_yields ec (lit "oct") [x] (NRaw ((if (z <? 0)%Z then [45%N] else []) ++ lit "0o" ++ ds)).
Proof.
  intros Ho Hx. destruct (int_value_of x z Hx) as [Ix Tx]. destruct (in_base_digits 8 (lit "0o") z ltac:(lia)) as (ds & E & D & V & Nn & Lz). exists ds. split.
  - split; [|auto]. eapply Forall_impl; [|exact D]. cbv beta. intros c [H1 H2]. unfold lower_hex_digit, decimal_digit, digit_value, oct_digit in *.
    destruct ((48 <=? c) && (c <=? 57))%N eqn:E1; [lia|]. destruct ((97 <=? c) && (c <=? 102))%N eqn:E2; lia.
  - rewrite <- E. apply (call_offered ec _ b_oct _ (NRaw (in_base 8 (lit "0o") z)) Ho); [reflexivity|cbn [is_term forallb]; rewrite Tx; reflexivity|].
    intros st. unfold b_oct, b_int1, arg1. rewrite Ix. reflexivity.
Qed.
Lemma call_case x t : offers ec (lit "lower") -> offers ec (lit "upper") -> offers ec (lit "swapcase") -> string_value x t ->
  exists l u w, Forall2 to_small t l /\ Forall2 to_capital t u /\ Forall2 to_other t w /\
    call_yields ec (lit "lower") [x] (NRaw l) /\ call_yields ec (lit "upper") [x] (NRaw u) /\ call_yields ec (lit "swapcase") [x] (NRaw w).
Proof.
  unfold string_value. intros H1 H2 H3 Hx. exists (lower t), (upper t), (map swap_char t). split; [apply lower_spec|]. split; [apply upper_spec|]. split; [apply swap_spec|]. split; [|split].
  - apply (call_offered ec _ (b_str1 lower) _ (NRaw (lower t)) H1); [reflexivity|terms|]. intros st. unfold b_str1, arg1. rewrite Hx. reflexivity.
  - apply (call_offered ec _ (b_str1 upper) _ (NRaw (upper t)) H2); [reflexivity|terms|]. intros st. unfold b_str1, arg1. rewrite Hx. reflexivity.
  - apply (call_offered ec _ b_swapcase _ (NRaw (map swap_char t)) H3); [reflexivity|terms|]. intros st. unfold b_swapcase, b_str1, arg1. rewrite Hx. reflexivity.
Qed.
Lemma call_chr_ord x c : offers ec (lit "ord") -> offers ec (lit "chr") -> string_value x [c] -> (c < 1114112)%N ->
  exists v, call_yields ec (lit "ord") [x] v /\ call_yields ec (lit "chr") [v] (NRaw [c]) /\ v = NInt (Z.of_N c).
Proof.
  unfold string_value. intros H1 H2 Hx Hc. exists (NInt (Z.of_N c)). split; [|split; [|reflexivity]].
  - apply (call_offered ec _ b_ord _ (NInt (Z.of_N c)) H1); [reflexivity|terms|]. intros st. unfold b_ord, arg1. destruct x; cbn [str_of] in Hx; try discriminate Hx; cbn [str_of]; rewrite ?Hx; try (injection Hx as ->); reflexivity.
  - apply (call_offered ec _ b_chr _ (NRaw [c]) H2); [reflexivity|reflexivity|]. intros st. unfold b_chr, arg1. cbn [int_of]. replace ((0 <=? Z.of_N c) && (Z.of_N c <? 1114112))%Z with true by lia.
    rewrite N2Z.id. reflexivity.
Qed.

(** ** Integers *)
Lemma call_int2 name (f : Z -> Z -> node) x y a b : offers ec name -> (forall cx input, dict_get name (core ++ more cx input) = Some (b_int2 f)) ->
  int_value x a -> int_value y b -> call_yields ec name [x; y] (builtin_result (f a b)).
Proof.
  intros Ho Hf Hx Hy. destruct (int_value_of x a Hx) as [Ix Tx]. destruct (int_value_of y b Hy) as [Iy Ty].
  apply (call_offered ec _ _ _ _ Ho Hf); [cbn [is_term forallb]; rewrite Tx, Ty; reflexivity|]. intros st. unfold b_int2, arg2. rewrite Ix, Iy. reflexivity.
Qed.
Lemma call_order name (f : comparison -> node) x y a b : offers ec name -> (forall cx input, dict_get name (core ++ more cx input) = Some (b_order f)) ->
  int_value x a -> int_value y b -> call_yields ec name [x; y] (builtin_result (f (a ?= b)%Z)).
Proof.
  intros Ho Hf Hx Hy. destruct (int_value_of x a Hx) as [Ix Tx]. destruct (int_value_of y b Hy) as [Iy Ty].
  apply (call_offered ec _ _ _ _ Ho Hf); [cbn [is_term forallb]; rewrite Tx, Ty; reflexivity|]. intros st. unfold b_order, arg2. rewrite Ix, Iy. reflexivity.
Qed.
Lemma call_compare x y a b : offers ec (lit "lt") -> offers ec (lit "le") -> offers ec (lit "gt") -> offers ec (lit "ge") -> int_value x a -> int_value y b ->
  exists l le g ge, call_yields ec (lit "lt") [x; y] (NInt l) /\ call_yields ec (lit "le") [x; y] (NInt le) /\
    call_yields ec (lit "gt") [x; y] (NInt g) /\ call_yields ec (lit "ge") [x; y] (NInt ge) /\
    ((l = 1 /\ a < b \/ l = 0 /\ ~ a < b) /\ (le = 1 /\ a <= b \/ le = 0 /\ ~ a <= b) /\
     (g = 1 /\ a > b \/ g = 0 /\ ~ a > b) /\ (ge = 1 /\ a >= b \/ ge = 0 /\ ~ a >= b))%Z.
Proof.
  intros H1 H2 H3 H4 Hx Hy. exists (match (a ?= b) with Lt => 1 | _ => 0 end)%Z, (match (a ?= b) with Gt => 0 | _ => 1 end)%Z, (match (a ?= b) with Gt => 1 | _ => 0 end)%Z, (match (a ?= b) with Lt => 0 | _ => 1 end)%Z.
  pose proof (call_order _ _ x y a b H1 ltac:(reflexivity) Hx Hy) as K1. pose proof (call_order _ _ x y a b H2 ltac:(reflexivity) Hx Hy) as K2.
  pose proof (call_order _ _ x y a b H3 ltac:(reflexivity) Hx Hy) as K3. pose proof (call_order _ _ x y a b H4 ltac:(reflexivity) Hx Hy) as K4.
  destruct (Z.compare_spec a b) as [E|E|E]; cbn [builtin_result] in K1, K2, K3, K4; cbv iota;
    (split; [exact K1|]); (split; [exact K2|]); (split; [exact K3|]); (split; [exact K4|]); lia.
Qed.
Lemma call_divide x y a b : offers ec (lit "floordiv") -> offers ec (lit "mod") -> int_value x a -> int_value y b -> b <> 0%Z ->
  exists q r, (a = b * q + r)%Z /\ (0 <= r < b \/ b < r <= 0)%Z /\
    call_yields ec (lit "floordiv") [x; y] (NInt q) /\ call_yields ec (lit "mod") [x; y] (NInt r).
Proof.
  intros H1 H2 Hx Hy Hb. destruct (int_value_of x a Hx) as [Ix Tx]. destruct (int_value_of y b Hy) as [Iy Ty]. exists (a / b)%Z, (a mod b)%Z.
  split; [apply Z.div_mod, Hb|]. split. { destruct (Z.lt_ge_cases 0 b); [left; apply Z.mod_pos_bound; lia|right; apply Z.mod_neg_bound; lia]. } split.
  - apply (call_offered ec _ b_floordiv _ (NInt (a / b)) H1); [reflexivity|cbn [is_term forallb]; rewrite Tx, Ty; reflexivity|]. intros st. unfold b_floordiv, b_checked, arg2, nonzero. rewrite Ix, Iy. replace (b =? 0)%Z with false by lia. reflexivity.
  - apply (call_offered ec _ b_mod _ (NInt (a mod b)) H2); [reflexivity|cbn [is_term forallb]; rewrite Tx, Ty; reflexivity|]. intros st. unfold b_mod, b_checked, arg2, nonzero. rewrite Ix, Iy. replace (b =? 0)%Z with false by lia. reflexivity.
Qed.
Lemma call_bits x y a b : offers ec (lit "and") -> offers ec (lit "or") -> offers ec (lit "xor") -> offers ec (lit "invert") -> int_value x a -> int_value y b ->
  exists c d f g, call_yields ec (lit "and") [x; y] (NInt c) /\ call_yields ec (lit "or") [x; y] (NInt d) /\ call_yields ec (lit "xor") [x; y] (NInt f) /\ call_yields ec (lit "invert") [x] (NInt g) /\
    forall n, (0 <= n)%Z -> Z.testbit c n = Z.testbit a n && Z.testbit b n /\ Z.testbit d n = Z.testbit a n || Z.testbit b n /\
      Z.testbit f n = xorb (Z.testbit a n) (Z.testbit b n) /\ Z.testbit g n = negb (Z.testbit a n).
Proof.
  intros H1 H2 H3 H4 Hx Hy. destruct (int_value_of x a Hx) as [Ix Tx]. exists (Z.land a b), (Z.lor a b), (Z.lxor a b), (- a - 1)%Z.
  split; [exact (call_int2 _ _ x y a b H1 ltac:(reflexivity) Hx Hy)|]. split; [exact (call_int2 _ _ x y a b H2 ltac:(reflexivity) Hx Hy)|].
  split; [exact (call_int2 _ _ x y a b H3 ltac:(reflexivity) Hx Hy)|]. split.
  - apply (call_offered ec _ b_invert _ (NInt (- a - 1)) H4); [reflexivity|cbn [is_term forallb]; rewrite Tx; reflexivity|]. intros st. unfold b_invert, b_int1, arg1. rewrite Ix. reflexivity.
  - intros n Hn. rewrite Z.land_spec, Z.lor_spec, Z.lxor_spec. repeat split. replace (- a - 1)%Z with (Z.lnot a) by (unfold Z.lnot; lia). apply Z.lnot_spec, Hn.
Qed.
Lemma call_shift x y a b : offers ec (lit "lshift") -> offers ec (lit "rshift") -> int_value x a -> int_value y b -> (0 <= b)%Z ->
  exists q r, (a = 2 ^ b * q + r)%Z /\ (0 <= r < 2 ^ b)%Z /\
    call_yields ec (lit "lshift") [x; y] (NInt (a * 2 ^ b)) /\ call_yields ec (lit "rshift") [x; y] (NInt q).
Proof.
  intros H1 H2 Hx Hy Hb. destruct (int_value_of x a Hx) as [Ix Tx]. destruct (int_value_of y b Hy) as [Iy Ty]. assert (P : (0 < 2 ^ b)%Z) by (apply Z.pow_pos_nonneg; lia).
  exists (a / 2 ^ b)%Z, (a mod 2 ^ b)%Z. split; [apply Z.div_mod; lia|]. split; [apply Z.mod_pos_bound, P|]. split.
  - rewrite <- Z.shiftl_mul_pow2 by exact Hb. apply (call_offered ec _ b_lshift _ (NInt (Z.shiftl a b)) H1); [reflexivity|cbn [is_term forallb]; rewrite Tx, Ty; reflexivity|]. intros st. unfold b_lshift, b_checked, arg2, nonneg. rewrite Ix, Iy. replace (b <? 0)%Z with false by lia. reflexivity.
  - rewrite <- Z.shiftr_div_pow2 by exact Hb. apply (call_offered ec _ b_rshift _ (NInt (Z.shiftr a b)) H2); [reflexivity|cbn [is_term forallb]; rewrite Tx, Ty; reflexivity|]. intros st. unfold b_rshift, b_checked, arg2, nonneg. rewrite Ix, Iy. replace (b <? 0)%Z with false by lia. reflexivity.
Qed.
Lemma call_arith x y a b : offers ec (lit "add") -> offers ec (lit "sub") -> offers ec (lit "mul") -> offers ec (lit "neg") -> offers ec (lit "abs") -> offers ec (lit "inc") -> offers ec (lit "dec") ->
  int_value x a -> int_value y b ->
  call_yields ec (lit "add") [x; y] (NInt (a + b)) /\ call_yields ec (lit "sub") [x; y] (NInt (a - b)) /\ call_yields ec (lit "mul") [x; y] (NInt (a * b)) /\
  call_yields ec (lit "neg") [x] (NInt (- a)) /\ call_yields ec (lit "abs") [x] (NInt (Z.abs a)) /\ call_yields ec (lit "inc") [x] (NInt (a + 1)) /\ call_yields ec (lit "dec") [x] (NInt (a - 1)).
Proof.
  intros H1 H2 H3 H4 H5 H6 H7 Hx Hy. destruct (int_value_of x a Hx) as [Ix Tx]. destruct (int_value_of y b Hy) as [Iy Ty].
  split; [apply (call_offered ec _ b_add _ (NInt (a + b)) H1); [reflexivity|cbn [is_term forallb]; rewrite Tx, Ty; reflexivity|]; intros st; unfold b_add, arg2; rewrite Ix, Iy; reflexivity|].
  split; [exact (call_int2 _ _ x y a b H2 ltac:(reflexivity) Hx Hy)|]. split; [apply (call_offered ec _ b_mul _ (NInt (a * b)) H3); [reflexivity|cbn [is_term forallb]; rewrite Tx, Ty; reflexivity|]; intros st; unfold b_mul, arg2; rewrite Ix, Iy; reflexivity|].
  split; [apply (call_offered ec _ b_neg _ (NInt (- a)) H4); [reflexivity|cbn [is_term forallb]; rewrite Tx; reflexivity|]; intros st; unfold b_neg, b_int1, arg1; rewrite Ix; reflexivity|].
  split; [apply (call_offered ec _ b_abs _ (NInt (Z.abs a)) H5); [reflexivity|cbn [is_term forallb]; rewrite Tx; reflexivity|]; intros st; unfold b_abs, b_int1, arg1; rewrite Ix; reflexivity|].
  split; [apply (call_offered ec _ b_inc _ (NInt (a + 1)) H6); [reflexivity|cbn [is_term forallb]; rewrite Tx; reflexivity|]; intros st; unfold b_inc, arg1; rewrite Ix; reflexivity|].
  apply (call_offered ec _ b_dec _ (NInt (a - 1)) H7); [reflexivity|cbn [is_term forallb]; rewrite Tx; reflexivity|]; intros st; unfold b_dec, arg1; rewrite Ix; reflexivity.
Qed.
Lemma sum_ints_acc l zs : Forall2 int_value l zs -> forall acc, sum_ints acc l = Some (fold_left Z.add zs acc).
Proof. induction 1 as [|x z l zs Hx _ IH]; intros acc; [reflexivity|]. cbn [sum_ints fold_left]. rewrite (proj1 (int_value_of x z Hx)). apply IH. Qed.
Lemma fold_add zs : forall acc, fold_left Z.add zs acc = (acc + fold_right Z.add 0 zs)%Z.
Proof. induction zs as [|z zs IH]; intros acc; cbn [fold_left fold_right]; [lia|]. rewrite IH. lia. Qed.
Lemma call_sum l zs : offers ec (lit "sum") -> Forall2 int_value l zs -> call_yields ec (lit "sum") [NList l] (NInt (fold_right Z.add 0%Z zs)).
Proof.
  intros Ho Hl. apply (call_offered ec _ b_sum _ (NInt (fold_right Z.add 0%Z zs)) Ho); [reflexivity| |].
  - cbn [is_term forallb]. replace (forallb is_term l) with true; [reflexivity|]. symmetry. clear -Hl. induction Hl as [|x z l zs Hx _ IH]; [reflexivity|]. cbn [forallb]. rewrite (proj2 (int_value_of x z Hx)). exact IH.
  - intros st. unfold b_sum, arg1. cbn [list_of]. rewrite (sum_ints_acc l zs Hl), fold_add. cbn [Z.add]. reflexivity.
Qed.
Lemma call_getslice l x y a b : offers ec (lit "getslice") -> is_term (NList l) = true -> int_value x a -> int_value y b ->
  exists w, slice_of l a b w /\ call_yields ec (lit "getslice") [NList l; x; y] (NList w).
Proof.
  intros Ho Ht Hx Hy. destruct (int_value_of x a Hx) as [Ix Tx]. destruct (int_value_of y b Hy) as [Iy Ty]. exists (slice1 (Some a) (Some b) l). split; [apply slice1_spec|].
  apply (call_offered ec _ b_getslice _ (NList (slice1 (Some a) (Some b) l)) Ho); [reflexivity|cbn [is_term forallb] in *; rewrite Ht, Tx, Ty; reflexivity|].
  intros st. unfold b_getslice. assert (Sx : slice_arg x = Some (Some a)) by (destruct Hx; reflexivity). assert (Sy : slice_arg y = Some (Some b)) by (destruct Hy; reflexivity).
  rewrite Sx, Sy. reflexivity.
Qed.
Lemma call_getslice_text l t x y a b : offers ec (lit "getslice") -> string_value l t -> int_value x a -> int_value y b ->
  exists w, slice_of t a b w /\ call_yields ec (lit "getslice") [l; x; y] (NRaw w).
Proof.
  intros Ho Hl Hx Hy. destruct (int_value_of x a Hx) as [Ix Tx]. destruct (int_value_of y b Hy) as [Iy Ty]. exists (slice1 (Some a) (Some b) t). split; [apply slice1_spec|].
  apply (call_offered ec _ b_getslice _ (NRaw (slice1 (Some a) (Some b) t)) Ho); [reflexivity|cbn [is_term forallb] in *; rewrite (string_term l t Hl), Tx, Ty; reflexivity|].
  intros st. unfold b_getslice. assert (Sx : slice_arg x = Some (Some a)) by (destruct Hx; reflexivity). assert (Sy : slice_arg y = Some (Some b)) by (destruct Hy; reflexivity).
  rewrite Sx, Sy. unfold on_seq. rewrite (string_seq l t Hl). reflexivity.
Qed.
Lemma call_count_list l v : offers ec (lit "count") -> is_term (NList [NList l; v]) = true -> exists w, call_yields ec (lit "count") [NList l; v] (NInt (Z.of_nat (List.length w))) /\
  exists mask, List.length mask = List.length l /\ (forall i x, nth_error l i = Some x -> nth_error mask i = Some true <-> equal x v) /\ w = map fst (filter snd (combine l mask)).
Proof.
  intros Ho Ht. exists (filter (fun x => py_eq x v) l). split.
  - apply (call_offered ec _ b_count _ (NInt (Z.of_nat (List.length (filter (fun x => py_eq x v) l)))) Ho); [reflexivity|exact Ht|reflexivity].
  - exists (map (fun x => py_eq x v) l). split; [apply map_length|]. split.
    + intros i x Hi. rewrite (map_nth_error _ _ _ Hi). destruct (py_eq_spec x v) as [E|E]; split; intros H; [exact E|reflexivity|discriminate H|contradiction].
    + clear. induction l as [|x l IH]; [reflexivity|]. cbn [map combine filter snd]. destruct (py_eq x v); cbn [map fst]; rewrite IH; reflexivity.
Qed.
End Functions.

(** ** Cases *)
Definition ec1 : ectx :=
  ECtx ctx0 true false 0 (builtin_with [] (fun _ _ => None) (lit "main.yu") (more_builtins ctx0 None (fun _ => None)))
       (fun _ => Ok []) (fun _ _ => Ok NNone) (fun t => t) (fun _ => 0%Z) (fun _ => []).
Lemma offers1 : Forall (fun n => offers ec1 (lit n)) ["split"; "join"; "replace"; "count"; "find"; "rfind"; "strip"; "lstrip"; "rstrip"; "ljust"; "rjust"; "zfill"; "atoi"; "str"; "hex"; "oct";
  "lower"; "upper"; "swapcase"; "ord"; "chr"; "lt"; "floordiv"; "mod"; "and"; "or"; "xor"; "invert"; "lshift"; "rshift"; "add"; "neg"; "sum"; "getslice"]%string.
Proof. repeat constructor; exists ctx0, None; intros im; reflexivity. Qed.
Definition txt (t : string) : node := NStr (raw (lit t)).
Definition call1 (f : string) (args : list node) (v : node) : Prop := evals ec1 noparse (call (var f) args) [] st0 v [] st0.
Lemma text_cases :
  call1 "split" [txt "a,b,,c"; txt ","] (NList [NRaw (lit "a"); NRaw (lit "b"); NRaw []; NRaw (lit "c")]) /\
  call1 "split" [txt "  to  be "] (NList [NRaw (lit "to"); NRaw (lit "be")]) /\
  call1 "join" [NList [txt "a"; txt "b"]; txt "--"] (NRaw (lit "a--b")) /\
  call1 "replace" [txt "aaaa"; txt "aaa"; txt "b"] (NRaw (lit "ba")) /\
  call1 "count" [txt "aaaaa"; txt "aa"] (NInt 2) /\
  call1 "find" [txt "banana"; txt "na"] (NInt 2) /\ call1 "rfind" [txt "banana"; txt "na"] (NInt 4) /\
  call1 "strip" [txt "xxhix"; txt "x"] (NRaw (lit "hi")) /\ call1 "lstrip" [txt "xxhix"; txt "x"] (NRaw (lit "hix")) /\
  call1 "rjust" [txt "ab"; NInt 4; txt "."] (NRaw (lit "..ab")) /\ call1 "ljust" [txt "ab"; NInt 1; txt "."] (NRaw (lit "ab")) /\
  call1 "zfill" [txt "-7"; NInt 4] (NRaw (lit "-007")) /\ call1 "swapcase" [txt "aB1"] (NRaw (lit "Ab1")).
Proof. unfold call1. repeat split; run 9%nat. Qed.
Lemma number_cases :
  call1 "atoi" [txt "-fF"; NInt 16] (NInt (-255)) /\ call1 "str" [NInt (-10)] (NRaw (lit "-10")) /\
  call1 "hex" [NInt (-255)] (NRaw (lit "-0xff")) /\ call1 "oct" [NInt 8] (NRaw (lit "0o10")) /\
  call1 "ord" [txt "A"] (NInt 65) /\ call1 "chr" [NInt 65] (NRaw (lit "A")) /\
  call1 "lt" [NInt 1; NInt 2] (NInt 1) /\ call1 "floordiv" [NInt (-7); NInt 2] (NInt (-4)) /\ call1 "mod" [NInt (-7); NInt 2] (NInt 1) /\
  call1 "xor" [NInt 6; NInt 3] (NInt 5) /\ call1 "invert" [NInt 6] (NInt (-7)) /\ call1 "rshift" [NInt (-7); NInt 1] (NInt (-4)) /\
  call1 "sum" [NList [NInt 1; NInt 2; NInt 3]] (NInt 6) /\
  call1 "getslice" [NList [NInt 1; NInt 2; NInt 3]; NInt 1; NInt (-1)] (NList [NInt 2]).
Proof. unfold call1. repeat split; run 9%nat. Qed.
