(** Text and number functions (proofs only). *)
From Coq Require Import List NArith ZArith Bool Lia ZifyBool ZifyNat ZifyN.
From Verif Require Import PyStr Ast Lex Parse Final Eval Builtin Builtin2 PyStrFacts LexSpec NumFacts EnvSpec EnvFacts EvalSpec EvalMono EvalKeep EvalPure EvalFacts EvalFacts2 EvalFacts3 EvalFacts4 BuiltinSpec BuiltinFacts TextSpec.
Import ListNotations.
Open Scope list_scope.

(** ** Occurrences *)
Lemma occurs_skipn p s i : occurs_at p s i <-> (i <= length s)%nat /\ startswith p (skipn i s) = true.
Proof.
  split.
  - intros (a & b & -> & <-). split; [rewrite app_length; lia|]. rewrite skipn_length_app. apply startswith_app.
  - intros [Hi H]. apply startswith_spec in H as [r H]. exists (firstn i s), r. split; [rewrite <- H; symmetry; apply firstn_skipn|].
    apply firstn_length_le, Hi.
Qed.
Lemma find_first p s : first_place p s (match find_sub p s with Some i => Z.of_nat i | None => -1 end).
Proof.
  destruct (find_sub p s) as [i|] eqn:E.
  - destruct (find_sub_some p s i E) as (Hi & Hs & Hj). apply FP_at.
    + exists (firstn i s), (skipn (i + length p) s). split; [exact Hs|]. apply firstn_length_le, Hi.
    + intros j Hoc. apply occurs_skipn in Hoc as [_ Hoc]. destruct (Nat.le_gt_cases i j) as [|G]; [assumption|]. rewrite (Hj j G) in Hoc. discriminate Hoc.
  - apply FP_none. intros j Hoc. apply occurs_skipn in Hoc as [_ Hoc]. rewrite (find_sub_none p s E j) in Hoc. discriminate Hoc.
Qed.
Lemma occurs_rev p s i : occurs_at (rev p) (rev s) i <-> (i + length p <= length s)%nat /\ occurs_at p s (length s - length p - i).
Proof.
  split.
  - intros (a & b & E & <-). assert (S1 : s = rev b ++ p ++ rev a).
    { rewrite <- (rev_involutive s), E, !rev_app_distr, rev_involutive, app_assoc. reflexivity. }
    rewrite S1, !app_length, !rev_length. split; [lia|]. exists (rev b), (rev a). split; [reflexivity|]. rewrite rev_length. lia.
  - intros [Hl (a & b & E & Ha)]. exists (rev b), (rev a). split; [rewrite E, !rev_app_distr, app_assoc; reflexivity|].
    assert (K := f_equal (@length _) E). rewrite !app_length in K. rewrite rev_length. lia.
Qed.
Lemma occurs_length p s i : occurs_at p s i -> (i + length p <= length s)%nat.
Proof. intros (a & b & -> & <-). rewrite !app_length. lia. Qed.
Lemma rfind_last p s : last_place p s (match rfind_sub p s with Some i => Z.of_nat i | None => -1 end).
Proof.
  unfold rfind_sub. pose proof (find_first (rev p) (rev s)) as F. destruct (find_sub (rev p) (rev s)) as [i|].
  - inversion F as [k Ho Hm Hk|Hn Hk]; [|lia]. replace k with i in * by lia. apply occurs_rev in Ho as [Hl Ho]. apply LP_at; [exact Ho|].
    intros j Hj. assert (L := occurs_length _ _ _ Hj).
    assert (K : occurs_at (rev p) (rev s) (length s - length p - j)).
    { apply occurs_rev. split; [lia|]. replace (length s - length p - (length s - length p - j))%nat with j by lia. exact Hj. }
    apply Hm in K. lia.
  - inversion F as [k Ho Hm Hk|Hn Hk]; [lia|]. apply LP_none. intros j Hj. assert (L := occurs_length _ _ _ Hj). apply (Hn (length s - length p - j)%nat).
    apply occurs_rev. split; [lia|]. replace (length s - length p - (length s - length p - j))%nat with j by lia. exact Hj.
Qed.

(** ** Splitting *)
(** what the three loops have in common: walking to the first occurrence *)
Lemma find_step p c s : startswith p (c :: s) = false -> (forall i, occurs_at p (c :: s) i <-> exists j, i = S j /\ occurs_at p s j).
Proof.
  intros E i. rewrite occurs_skipn. split.
  - intros [Hi H]. destruct i as [|j]; [cbn [skipn] in H; congruence|]. exists j. split; [reflexivity|]. apply occurs_skipn. cbn [length skipn] in *. split; [lia|exact H].
  - intros (j & -> & H). apply occurs_skipn in H as [H1 H2]. cbn [length skipn]. split; [lia|exact H2].
Qed.
Lemma split_skip_drop p a : forall k cur s, k = length a -> split_skip p k cur (a ++ s) = split_skip p O cur s.
Proof. induction a as [|c a IH]; intros k cur s ->; [reflexivity|]. cbn [length app split_skip]. apply IH. reflexivity. Qed.
Lemma replace_skip_drop p q a : forall k s, k = length a -> replace_skip p q k (a ++ s) = replace_skip p q O s.
Proof. induction a as [|c a IH]; intros k s ->; [reflexivity|]. cbn [length app replace_skip]. apply IH. reflexivity. Qed.
Lemma count_skip_drop p a : forall k s, k = length a -> count_skip p k (a ++ s) = count_skip p O s.
Proof. induction a as [|c a IH]; intros k s ->; [reflexivity|]. cbn [length app count_skip]. apply IH. reflexivity. Qed.

Lemma cut_first p a b : p <> [] -> (forall i, occurs_at p (a ++ p ++ b) i -> (length a <= i)%nat) ->
  (forall cur, split_skip p O cur (a ++ p ++ b) = (rev cur ++ a) :: split_skip p O [] b) /\
  (forall q, replace_skip p q O (a ++ p ++ b) = a ++ q ++ replace_skip p q O b) /\
  count_skip p O (a ++ p ++ b) = S (count_skip p O b).
Proof.
  intros Hp. induction a as [|c a IH]; intros H.
  - destruct p as [|c p]; [contradiction|]. assert (E : startswith (c :: p) (c :: p ++ b) = true) by (apply (startswith_app (c :: p))).
    repeat split; [intros cur|intros q|]; cbn [app split_skip replace_skip count_skip]; rewrite E; cbn [length pred].
    + rewrite split_skip_drop by reflexivity. rewrite app_nil_r. reflexivity.
    + rewrite replace_skip_drop by reflexivity. reflexivity.
    + rewrite count_skip_drop by reflexivity. reflexivity.
  - assert (E : startswith p ((c :: a) ++ p ++ b) = false).
    { destruct (startswith p ((c :: a) ++ p ++ b)) eqn:E; [|reflexivity]. exfalso. assert (K : occurs_at p ((c :: a) ++ p ++ b) 0) by (apply occurs_skipn; split; [lia|exact E]).
      apply H in K. cbn [length] in K. lia. }
    destruct IH as (H1 & H2 & H3).
    { intros i Hi. assert (K : occurs_at p ((c :: a) ++ p ++ b) (S i)) by (apply (find_step p c (a ++ p ++ b) E); exists i; auto). apply H in K. cbn [length] in K. lia. }
    cbn [app] in *. repeat split; [intros cur|intros q|]; cbn [split_skip replace_skip count_skip]; rewrite E.
    + rewrite H1. cbn [rev]. rewrite <- app_assoc. reflexivity.
    + rewrite H2. reflexivity.
    + exact H3.
Qed.
Lemma cut_none p t : (forall i, ~ occurs_at p t i) ->
  (forall cur, split_skip p O cur t = [rev cur ++ t]) /\ (forall q, replace_skip p q O t = t) /\ count_skip p O t = O.
Proof.
  induction t as [|c t IH]; intros H.
  - repeat split; intros; cbn [split_skip replace_skip count_skip]; rewrite ?app_nil_r; reflexivity.
  - assert (E : startswith p (c :: t) = false).
    { destruct (startswith p (c :: t)) eqn:E; [|reflexivity]. exfalso. apply (H O). apply occurs_skipn. split; [cbn; lia|exact E]. }
    destruct IH as (H1 & H2 & H3). { intros i Hi. apply (H (S i)), (find_step p c t E). exists i. auto. }
    repeat split; [intros cur|intros q|]; cbn [split_skip replace_skip count_skip]; rewrite E.
    + rewrite H1. cbn [rev]. rewrite <- app_assoc. reflexivity.
    + rewrite H2. reflexivity.
    + exact H3.
Qed.
Lemma parts_exist p t : p <> [] -> exists l, parts p t l.
Proof.
  intros Hp. remember (length t) as n eqn:En. revert t En. induction n as [n IH] using lt_wf_ind. intros t En.
  pose proof (find_first p t) as F. destruct (find_sub p t) as [i|].
  - inversion F as [k Ho Hm Hk|]; [|lia]. replace k with i in * by lia. destruct Ho as (a & b & Et & Ha).
    assert (Hb : (length b < n)%nat). { subst n. rewrite Et, !app_length. destruct p; [contradiction|]. cbn [length]. lia. }
    destruct (IH _ Hb b eq_refl) as [l Hl]. exists (a :: l). rewrite Et. apply PA_next; [|exact Hl]. rewrite <- Et, Ha. exact Hm.
  - inversion F as [k Ho Hm Hk|Hn Hk]; [lia|]. exists [t]. apply PA_last, Hn.
Qed.
Lemma parts_split p t l : p <> [] -> parts p t l ->
  split_skip p O [] t = l /\ (forall q, joined q l (replace_skip p q O t)) /\ S (count_skip p O t) = length l.
Proof.
  intros Hp. induction 1 as [t H|a b l H Hl IH].
  - destruct (cut_none p t H) as (H1 & H2 & H3). rewrite H1, H3. cbn [rev app length]. repeat split. intros q. rewrite H2. constructor.
  - destruct (cut_first p a b Hp H) as (H1 & H2 & H3). destruct IH as (I1 & I2 & I3). rewrite H1, H3, I1, I3. cbn [rev app length]. repeat split.
    intros q. rewrite H2. specialize (I2 q). destruct Hl; constructor; exact I2.
Qed.
Lemma parts_join p t l : parts p t l -> joined p l t.
Proof. induction 1 as [t H|a b l H Hl IH]; [constructor|]. destruct Hl; constructor; exact IH. Qed.
Lemma joined_join sep l : joined sep l (join sep l).
Proof. induction l as [|x [|y l] IH]; [constructor|constructor|]. change (join sep (x :: y :: l)) with (x ++ sep ++ join sep (y :: l)). constructor. exact IH. Qed.
Lemma joined_det sep l t u : joined sep l t -> joined sep l u -> t = u.
Proof. intros H. revert u. induction H as [|x|x y l t H IH]; intros u Hu; inversion Hu; subst; [reflexivity|reflexivity|]. f_equal. f_equal. apply IH. assumption. Qed.
Lemma split_words t : forall cur, Forall (fun c => ~ space c) cur ->
  words_of (rev cur ++ t) (split_space cur t).
Proof.
  induction t as [|c t IH]; intros cur Hc; cbn [split_space].
  - rewrite app_nil_r. destruct cur as [|d cur]; [apply WO_end; constructor|].
    assert (K := WO_word [] (rev (d :: cur)) [] []). cbn [app] in K. rewrite app_nil_r in K. apply K; [constructor| | |exact Logic.I|constructor; constructor].
    + cbn [rev]. intros E. apply app_eq_nil in E as [_ E]. discriminate E.
    + apply Forall_rev, Hc.
  - destruct (py_isspace c) eqn:E.
    + assert (H := IH [] ltac:(constructor)). cbn [rev app] in H. destruct cur as [|d cur].
      * cbn [rev app]. inversion H as [u Hu|g w r l Hg Hw Hw2 Hr Hl]; subst.
        -- apply WO_end. constructor; [exact E|assumption].
        -- apply (WO_word (c :: g)); try assumption. constructor; [exact E|exact Hg].
      * apply (WO_word [] (rev (d :: cur))); [constructor| |apply Forall_rev, Hc|exact E|].
        -- cbn [rev]. intros K. apply app_eq_nil in K as [_ K]. discriminate K.
        -- inversion H as [u Hu|g w r l Hg Hw Hw2 Hr Hl]; subst.
           ++ apply WO_end. constructor; [exact E|assumption].
           ++ apply (WO_word (c :: g)); try assumption. constructor; [exact E|exact Hg].
    + assert (H : words_of (rev (c :: cur) ++ t) (split_space (c :: cur) t)) by (apply IH; constructor; [unfold space; congruence|exact Hc]). cbn [rev] in H. rewrite <- app_assoc in H. exact H.
Qed.

(** ** Stripping *)
Lemma drop_while_cut (p : char -> bool) (q : char -> Prop) t : (forall c, p c = true <-> q c) -> cut_left q t (drop_while p t).
Proof.
  intros Hp. induction t as [|c t IH]; cbn [drop_while].
  - exists []. repeat split; [constructor|]. intros (c & r & E & _). discriminate E.
  - destruct (p c) eqn:E.
    + destruct IH as (a & H1 & H2 & H3). exists (c :: a). cbn [app]. rewrite <- H1. repeat split; [constructor; [apply Hp, E|exact H2]|exact H3].
    + exists []. repeat split; [constructor|]. intros (d & r & Ed & Hd). injection Ed as <- <-. apply Hp in Hd. congruence.
Qed.
Lemma cut_rev q t w : cut_left q (rev t) w -> cut_right q t (rev w).
Proof.
  intros (a & H1 & H2 & H3). exists (rev a). repeat split.
  - rewrite <- (rev_involutive t), H1, rev_app_distr. reflexivity.
  - apply Forall_rev, H2.
  - intros (c & r & E & Hc). apply H3. exists c, (rev r). split; [|exact Hc]. rewrite <- (rev_involutive w), E, rev_app_distr. reflexivity.
Qed.
Lemma strip_right_cut (p : char -> bool) (q : char -> Prop) t : (forall c, p c = true <-> q c) -> cut_right q t (strip_right p t).
Proof. intros Hp. unfold strip_right. apply cut_rev, drop_while_cut, Hp. Qed.

(** ** Padding *)
Lemma repeat_padding c t w : padding c t w (repeat c (Z.to_nat w - length t)).
Proof.
  split; [apply Forall_forall; intros x Hx; symmetry; apply (repeat_spec _ _ _ Hx)|]. rewrite repeat_length. lia.
Qed.

(** ** Case *)
Lemma lower_spec t : Forall2 to_small t (lower t).
Proof. induction t as [|c t IH]; [constructor|]. constructor; [|exact IH]. unfold to_small, lower_char, capital. destruct (_ && _) eqn:E; [left|right]; split; try reflexivity; lia. Qed.
Lemma upper_spec t : Forall2 to_capital t (upper t).
Proof. induction t as [|c t IH]; [constructor|]. constructor; [|exact IH]. unfold to_capital, upper_char, small. destruct (_ && _) eqn:E; [left|right]; split; try reflexivity; lia. Qed.
Lemma swap_spec t : Forall2 to_other t (map swap_char t).
Proof.
  induction t as [|c t IH]; [constructor|]. constructor; [|exact IH]. unfold to_other, to_small, to_capital, swap_char, upper_char, small, capital.
  destruct ((65 <=? c) && (c <=? 90))%N eqn:E.
  - left. split; [left|]; lia.
  - right. split; [|lia]. destruct ((97 <=? c) && (c <=? 122))%N eqn:E2; [left|right]; lia.
Qed.

(** ** Digits *)
Lemma value_app base a b : value base (a ++ b) = (value base a * base ^ Z.of_nat (length b) + value base b)%Z.
Proof.
  induction a as [|c a IH]; cbn [app value]; [lia|]. rewrite IH, app_length, Nat2Z.inj_add, Z.pow_add_r by lia. ring.
Qed.
Lemma hex_digits_value base : (2 <= base <= 16)%Z -> forall n z acc, (0 <= z)%Z -> (z < 2 ^ Z.of_nat n)%Z -> (0 < n)%nat ->
  exists ds, hex_digits n base z acc = ds ++ acc /\ value base ds = z /\ ds <> [] /\ (forall r, ds = 48%N :: r -> r = []) /\
    Forall (fun c => lower_hex_digit c /\ (digit_value c < base)%Z) ds.
Proof.
  intros Hb. induction n as [|n IH]; intros z acc Hz Hn Hpos; [lia|]. cbn [hex_digits].
  set (d := Z.to_N (z mod base)%Z). set (c := (if (d <? 10)%N then 48 + d else 87 + d)%N).
  pose proof (Z.mod_pos_bound z base ltac:(lia)) as B.
  assert (Dc : lower_hex_digit c /\ digit_value c = (z mod base)%Z).
  { subst c. unfold lower_hex_digit, decimal_digit, digit_value. destruct (N.ltb_spec d 10) as [L|L].
    - split; [left; lia|]. replace ((48 <=? 48 + d) && (48 + d <=? 57))%N with true by lia. lia.
    - split; [right; lia|]. replace ((48 <=? 87 + d) && (87 + d <=? 57))%N with false by lia. replace ((97 <=? 87 + d) && (87 + d <=? 102))%N with true by lia. lia. }
  destruct Dc as [Dc Vc]. destruct (Z.ltb_spec z base) as [L|L].
  - exists [c]. split; [reflexivity|]. cbn [value length]. change (Z.of_nat 0) with 0%Z. rewrite Vc, Z.mod_small by lia. repeat split; try lia.
    + discriminate.
    + intros r [= _ <-]. reflexivity.
    + constructor; [|constructor]. split; [exact Dc|]. rewrite Vc, Z.mod_small; lia.
  - rewrite Nat2Z.inj_succ, Z.pow_succ_r in Hn by lia.
    assert (Q : (0 < z / base)%Z) by (apply Z.div_str_pos; lia). assert (Q2 : (z / base < 2 ^ Z.of_nat n)%Z) by (apply Z.div_lt_upper_bound; nia).
    assert (Hn0 : (0 < n)%nat). { destruct n; [|lia]. cbn in Q2. lia. }
    destruct (IH (z / base)%Z (c :: acc) ltac:(lia) Q2 Hn0) as (ds & E & V & Nd & Lz & Fd). exists (ds ++ [c]). rewrite E, <- app_assoc. split; [reflexivity|].
    split; [|split; [|split]].
    + rewrite value_app. cbn [value length]. change (Z.of_nat 0) with 0%Z. change (Z.of_nat 1) with 1%Z. rewrite V, Vc. pose proof (Z.div_mod z base). nia.
    + intros K. apply app_eq_nil in K as [_ K]. discriminate K.
    + intros r K. destruct ds as [|x ds]; [contradiction|]. cbn [app] in K. injection K as -> <-. rewrite (Lz ds eq_refl) in *. exfalso.
      cbn [value length] in V. change (digit_value 48) with 0%Z in V. lia.
    + apply Forall_app. split; [exact Fd|]. constructor; [|constructor]. split; [exact Dc|]. rewrite Vc. lia.
Qed.
Lemma in_base_digits base prefix z : (2 <= base <= 16)%Z -> exists ds,
  in_base base prefix z = (if (z <? 0)%Z then [45%N] else []) ++ prefix ++ ds /\
  digits_of (fun c => lower_hex_digit c /\ (digit_value c < base)%Z) base (Z.abs z) ds.
Proof.
  intros Hb. unfold in_base.
  destruct (hex_digits_value base Hb (S (Z.to_nat (Z.log2 (Z.abs z)))) (Z.abs z) [] ltac:(lia)) as (ds & E & V & Nd & Lz & Fd); [|lia|].
  - rewrite Nat2Z.inj_succ, Z2Nat.id by apply Z.log2_nonneg. destruct (Z.eq_dec z 0) as [->|Hz]; [reflexivity|]. apply Z.log2_spec. lia.
  - exists ds. rewrite E, app_nil_r. split; [reflexivity|]. repeat split; assumption.
Qed.

(** ** atoi *)
Lemma digit_ok_value base c : (2 <= base <= 16)%Z -> (digit_ok base c = true <-> hex_digit c /\ (digit_value c < base)%Z).
Proof.
  intros Hb. unfold digit_ok, hex_digit, decimal_digit, digit_value, digit_val, is_digit.
  destruct ((48 <=? c) && (c <=? 57))%N eqn:E1.
  - split; intros H; [split; [left; lia|lia]|lia].
  - destruct ((97 <=? c) && (c <=? 102))%N eqn:E2.
    + split; intros H; [split; [right; left|]; lia|]. lia.
    + destruct ((65 <=? c) && (c <=? 70))%N eqn:E3.
      * split; intros H; [split; [right; right|]; lia|lia].
      * split; intros H; lia.
Qed.
Lemma int_base_digits base sg ds : (2 <= base <= 16)%Z -> (sg = [] \/ sg = [43%N] \/ sg = [45%N]) -> ds <> [] ->
  Forall (fun c => hex_digit c /\ (digit_value c < base)%Z) ds ->
  int_base base (sg ++ ds) = Some (if teqb sg [45%N] then - value base ds else value base ds)%Z.
Proof.
  intros Hb Hs Hn Hd.
  assert (Hh : Forall hex_digit ds) by (eapply Forall_impl; [|exact Hd]; cbv beta; tauto).
  assert (Hok : forallb (digit_ok base) ds = true).
  { apply forallb_forall. intros c Hc. apply digit_ok_value; [exact Hb|]. rewrite Forall_forall in Hd. apply Hd, Hc. }
  assert (Hst : strip (sg ++ ds) = sg ++ ds).
  { apply strip_id, Forall_app. split; [destruct Hs as [-> | [-> | ->]]; repeat constructor|]. eapply Forall_impl; [|exact Hh].
    intros c Hc. apply word_not_space, hex_word, Hc. }
  unfold int_base. rewrite Hst, <- (digits_val_value base ds Hh). destruct ds as [|d ds]; [contradiction|].
  destruct Hs as [-> | [-> | ->]]; cbn [app N.eqb].
  - assert (H45 : (d =? 45)%N = false /\ (d =? 43)%N = false). { inversion Hh as [|? ? H1 H2]; subst. unfold hex_digit, decimal_digit in H1. lia. }
    destruct H45 as [-> ->]. rewrite Hok. reflexivity.
  - change (43 =? 45)%N with false. change (43 =? 43)%N with true. cbn match. rewrite Hok. reflexivity.
  - change (45 =? 45)%N with true. cbn match. rewrite Hok. reflexivity.
Qed.
Lemma Z_text_digits z : exists sg ds, Z_text z = sg ++ ds /\ (sg = [] \/ sg = [45%N]) /\ ds <> [] /\ Forall decimal_digit ds /\
  (if teqb sg [45%N] then - value 10 ds else value 10 ds)%Z = z.
Proof.
  assert (V : forall p, value 10 (uint_text (Pos.to_uint p)) = Zpos p) by (intros p; rewrite <- value_of_uint, DecimalPos.Unsigned.of_to; reflexivity).
  assert (Nn : forall p, uint_text (Pos.to_uint p) <> []). { intros p E. specialize (V p). rewrite E in V. discriminate V. }
  destruct z as [|p|p]; cbn [Z_text].
  - exists [], [48%N]. repeat split; [left; reflexivity|discriminate|]. constructor; [unfold decimal_digit; lia|constructor].
  - exists [], (uint_text (Pos.to_uint p)). repeat split; [left; reflexivity|apply Nn|apply uint_text_digits|apply V].
  - exists [45%N], (uint_text (Pos.to_uint p)). repeat split; [right; reflexivity|apply Nn|apply uint_text_digits|]. cbn [teqb]. change (45 =? 45)%N with true. cbn [andb]. rewrite V. reflexivity.
Qed.
Lemma int_base_text z : int_base 10 (Z_text z) = Some z.
Proof.
  destruct (Z_text_digits z) as (sg & ds & E & Hs & Hn & Hd & V). rewrite E, int_base_digits.
  - rewrite V. reflexivity.
  - lia.
  - destruct Hs; auto.
  - exact Hn.
  - eapply Forall_impl; [|exact Hd]. intros c Hc. split; [left; exact Hc|]. unfold decimal_digit in Hc. unfold digit_value. replace ((48 <=? c) && (c <=? 57))%N with true by lia. lia.
Qed.

(** ** Slices *)
Lemma norm_place n z : Z.of_nat (norm_index n z) = place (Z.of_nat n) z.
Proof. unfold norm_index, place. destruct (z <? 0)%Z eqn:E; lia. Qed.
Lemma slice1_spec {A} (l : list A) a b : slice_of l a b (slice1 (Some a) (Some b) l).
Proof.
  unfold slice1. set (lo := norm_index (length l) a). set (hi := norm_index (length l) b).
  assert (Hlo : (lo <= length l)%nat) by (subst lo; unfold norm_index; destruct (a <? 0)%Z eqn:E; lia).
  assert (Hhi : (hi <= length l)%nat) by (subst hi; unfold norm_index; destruct (b <? 0)%Z eqn:E; lia).
  exists (firstn lo l), (skipn (hi - lo) (skipn lo l)). split; [|split].
  - rewrite (firstn_skipn (hi - lo)). symmetry. apply firstn_skipn.
  - rewrite firstn_length_le by exact Hlo. apply norm_place.
  - rewrite <- !norm_place. fold lo hi. rewrite firstn_length, skipn_length. lia.
Qed.
