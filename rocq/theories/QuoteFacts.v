(** String literals (proofs only). *)
From Coq Require Import List NArith ZArith Bool String Lia ZifyBool ZifyNat ZifyN.
From Verif Require Import PyStr Ast Lex Parse Final Eval Builtin Builtin2 PyStrFacts LexSpec NumFacts EnvSpec EnvFacts EvalSpec EvalMono EvalKeep EvalPure EvalFacts EvalFacts2 EvalFacts3 EvalFacts4 BuiltinSpec BuiltinFacts TextSpec TextFacts TextCases QuoteSpec.
Import ListNotations.
Open Scope list_scope.

Lemma is_hex_digit c : hex_digit c -> is_hex c = true.
Proof. unfold hex_digit, decimal_digit, is_hex, is_digit. lia. Qed.
Lemma is_oct_digit c : oct_digit c -> is_oct c = true.
Proof. unfold oct_digit, is_oct. lia. Qed.
Lemma hex_all ds : Forall hex_digit ds -> forallb is_hex ds = true.
Proof. intros H. apply forallb_forall. intros c Hc. rewrite Forall_forall in H. apply is_hex_digit, H, Hc. Qed.
Lemma oct_hex c : oct_digit c -> hex_digit c.
Proof. unfold oct_digit, hex_digit, decimal_digit. lia. Qed.
Lemma digit_value_range c : hex_digit c -> (0 <= digit_value c < 16)%Z.
Proof. unfold hex_digit, decimal_digit, digit_value. intros H. destruct ((48 <=? c)%N && (c <=? 57)%N) eqn:E1; [lia|]. destruct ((97 <=? c)%N && (c <=? 102)%N) eqn:E2; lia. Qed.
Lemma value_range ds : Forall hex_digit ds -> (0 <= value 16 ds < 16 ^ Z.of_nat (List.length ds))%Z.
Proof.
  induction 1 as [|d ds Hd _ IH]; [cbn; lia|]. cbn [value List.length]. pose proof (digit_value_range d Hd). rewrite Nat2Z.inj_succ, Z.pow_succ_r by lia. nia.
Qed.
Lemma hex_char_value ds : Forall hex_digit ds -> (value 16 ds < 1114112)%Z -> hex_char ds = Some (Z.to_N (value 16 ds)).
Proof.
  intros H Hv. unfold hex_char. rewrite (hex_all ds H), (digits_val_value 16 ds H).
  pose proof (value_range ds H). replace (Z.to_N (value 16 ds) <? 1114112)%N with true; [reflexivity|]. symmetry. lia.
Qed.
Lemma oct_char_value ds : Forall oct_digit ds -> oct_char ds = Z.to_N (value 8 ds).
Proof. intros H. unfold oct_char. rewrite digits_val_value; [reflexivity|]. eapply Forall_impl; [|exact H]. exact oct_hex. Qed.

Section Unescape.
Variable stop : char -> bool.
Variable plain : char -> Prop.
Hypothesis Hplain : forall c, plain c -> stop c = false.
Hypothesis Hascii : forall c, (c = 92 \/ c = 120 \/ c = 117 \/ c = 85 \/ oct_digit c)%N -> stop c = false.
Lemma unescape_escape e c w t : escape e c -> unescape stop w = LText t -> unescape stop (e ++ w) = LText (c :: t).
Proof.
  intros He Hw. assert (S92 : stop 92%N = false) by (apply Hascii; lia).
  destruct He as [| | | | | | | | | |ds Hd Hl|ds Hd Hl|ds Hd Hl Hv].
  all: try (cbn [app unescape]; rewrite S92; cbn [N.eqb Pos.eqb negb simple_escape]; rewrite Hw; reflexivity).
  - assert (S1 : stop 120%N = false) by (apply Hascii; lia). pose proof (value_range ds Hd) as R. rewrite Hl in R. change (16 ^ Z.of_nat 2)%Z with 256%Z in R. pose proof (hex_char_value ds Hd ltac:(lia)) as K.
    destruct ds as [|a [|b [|? ?]]]; try discriminate Hl. cbn [app unescape]. rewrite S92. cbn [N.eqb Pos.eqb negb simple_escape]. rewrite S1, K, Hw. reflexivity.
  - assert (S1 : stop 117%N = false) by (apply Hascii; lia). pose proof (value_range ds Hd) as R. rewrite Hl in R. change (16 ^ Z.of_nat 4)%Z with 65536%Z in R. pose proof (hex_char_value ds Hd ltac:(lia)) as K.
    destruct ds as [|a [|b [|a1 [|b1 [|? ?]]]]]; try discriminate Hl. cbn [app unescape]. rewrite S92. cbn [N.eqb Pos.eqb negb simple_escape]. rewrite S1, K, Hw. reflexivity.
  - assert (S1 : stop 85%N = false) by (apply Hascii; lia). pose proof (hex_char_value ds Hd Hv) as K.
    destruct ds as [|a [|b [|a1 [|b1 [|a2 [|b2 [|a3 [|b3 [|? ?]]]]]]]]]; try discriminate Hl. cbn [app unescape]. rewrite S92. cbn [N.eqb Pos.eqb negb simple_escape]. rewrite S1, K, Hw. reflexivity.
Qed.
Lemma oct_simple c : oct_digit c -> simple_escape c = None /\ (c =? 10)%N = false /\ (c =? 120)%N = false /\ (c =? 117)%N = false /\ (c =? 85)%N = false /\ (c =? 78)%N = false.
Proof.
  unfold oct_digit, simple_escape. intros H.
  repeat match goal with |- context [N.eqb c ?k] => replace (N.eqb c k) with false by lia end. repeat split.
Qed.
Lemma stops_head w : stops_at oct_digit w -> match w with [] => True | c :: _ => is_oct c = false end.
Proof. unfold stops_at. destruct w as [|c w]; [trivial|]. unfold oct_digit, is_oct. intros H. lia. Qed.
Lemma unescape_octal ds w t : Forall oct_digit ds -> (1 <= List.length ds <= 3)%nat -> (List.length ds = 3%nat \/ stops_at oct_digit w) ->
  unescape stop w = LText t -> unescape stop (92%N :: ds ++ w) = LText (Z.to_N (value 8 ds) :: t).
Proof.
  intros Hd Hl Hs Hw. assert (S92 : stop 92%N = false) by (apply Hascii; lia). rewrite <- (oct_char_value ds Hd).
  destruct ds as [|d [|d1 [|d2 [|? ?]]]]; cbn [List.length] in Hl, Hs; try lia;
    inversion Hd as [|? ? H1 Hd1]; subst; destruct (oct_simple d H1) as (K1 & K2 & K3 & K4 & K5 & K6);
    cbn [app unescape]; rewrite S92; cbn [N.eqb Pos.eqb negb]; rewrite K2, K1, (Hascii d) by tauto; rewrite K3, K4, K5, K6, (is_oct_digit d H1).
  - destruct Hs as [Hs|Hs]; [discriminate Hs|]. apply stops_head in Hs. destruct w as [|c w]; [cbn in Hw; injection Hw as <-; reflexivity|]. rewrite Hs, Hw. reflexivity.
  - destruct Hs as [Hs|Hs]; [discriminate Hs|]. apply stops_head in Hs. inversion Hd1 as [|? ? H2 _]; subst. rewrite (is_oct_digit d1 H2).
    destruct w as [|c w]; [cbn in Hw; injection Hw as <-; reflexivity|]. rewrite Hs, Hw. reflexivity.
  - inversion Hd1 as [|? ? H2 Hd2]; subst. inversion Hd2 as [|? ? H3 _]; subst. rewrite (is_oct_digit d1 H2), (is_oct_digit d2 H3), Hw. reflexivity.
Qed.
Lemma kept_simple e : ~ escape_letter e -> simple_escape e = None /\ (e =? 10)%N = false /\ (e =? 120)%N = false /\ (e =? 117)%N = false /\ (e =? 85)%N = false /\ (e =? 78)%N = false /\ is_oct e = false.
Proof.
  unfold escape_letter, oct_digit, simple_escape, is_oct. cbn [In]. intros H.
  repeat match goal with |- context [N.eqb e ?k] => replace (N.eqb e k) with false by (symmetry; apply N.eqb_neq; intros E; apply H; left; subst e; tauto) end.
  repeat split. lia.
Qed.
Lemma unescape_spec w t : denotes plain w t -> unescape stop w = LText t.
Proof.
  assert (S92 : stop 92%N = false) by (apply Hascii; lia).
  induction 1 as [|c w t Hc Hn _ IH|e c w t He _ IH|ds w t Hd Hl Hs _ IH|w t _ IH|e w t He Hn _ IH].
  - reflexivity.
  - cbn [unescape]. rewrite (Hplain c Hc). replace (c =? 92)%N with false by lia. cbn [negb]. rewrite IH. reflexivity.
  - apply unescape_escape; assumption.
  - apply unescape_octal; assumption.
  - cbn [unescape]. rewrite S92. cbn [N.eqb Pos.eqb negb]. exact IH.
  - destruct (kept_simple e Hn) as (K1 & K2 & K3 & K4 & K5 & K6 & K7). cbn [unescape]. rewrite S92. cbn [N.eqb Pos.eqb negb].
    rewrite K2, K1, (Hplain e He), K3, K4, K5, K6, K7, IH. reflexivity.
Qed.
End Unescape.

Lemma unq_literal cx q w t : quote q -> denotes (inside q) w t -> unq cx (q :: w ++ [q]) = t.
Proof.
  intros Hq Hw. unfold unq. cbn [unq_simple]. replace ((q =? ch_dquote)%N || (q =? ch_squote)%N) with true by (destruct Hq as [-> | ->]; reflexivity).
  rewrite removelast_last, last_last, N.eqb_refl. rewrite app_length. cbn [List.length]. rewrite Nat.add_1_r. cbn [Nat.eqb negb andb].
  rewrite (unescape_spec (quote_stop q) (inside q)) with (t := t); [reflexivity| | |exact Hw].
  - intros c. unfold inside, quote_stop. lia.
  - intros c. unfold quote, oct_digit, quote_stop in *. lia.
Qed.
Lemma unq_unquoted cx w t : (forall q r, w = q :: r -> ~ quote q) -> denotes ascii w t -> unq cx w = t.
Proof.
  intros Hq Hw. unfold unq. destruct w as [|q r]; [inversion Hw; subst; try reflexivity|].
  - match goal with H : escape ?e _ |- _ => destruct H; discriminate end.
  - specialize (Hq q r eq_refl). unfold quote in Hq. cbn [unq_simple]. replace ((q =? ch_dquote)%N || (q =? ch_squote)%N) with false by (unfold ch_dquote, ch_squote; lia).
    rewrite (unescape_spec (fun c => 128 <=? c)%N ascii) with (t := t); [reflexivity| | |exact Hw].
    + unfold ascii. intros. lia.
    + unfold oct_digit. intros. lia.
Qed.

(** ** q and qs *)
Lemma hex2_value n : (n < 256)%N -> Forall hex_digit (hex2 n) /\ Forall printable (hex2 n) /\ List.length (hex2 n) = 2%nat /\ value 16 (hex2 n) = Z.of_N n.
Proof.
  intros Hn. unfold hex2. assert (Hq : (n / 16 < 16)%N) by (apply N.div_lt_upper_bound; lia). assert (Hr : (n mod 16 < 16)%N) by (apply N.mod_lt; lia).
  pose proof (N.div_mod n 16 ltac:(lia)) as E.
  assert (K : forall k, (k < 16)%N -> let d := (if k <? 10 then 48 + k else 87 + k)%N in hex_digit d /\ printable d /\ digit_value d = Z.of_N k).
  { intros k Hk. cbv zeta. unfold hex_digit, decimal_digit, printable, digit_value. destruct (k <? 10)%N eqn:Ek.
    - replace ((48 <=? 48 + k)%N && (48 + k <=? 57)%N) with true by lia. lia.
    - replace ((48 <=? 87 + k)%N && (87 + k <=? 57)%N) with false by lia. replace ((97 <=? 87 + k)%N && (87 + k <=? 102)%N) with true by lia. lia. }
  destruct (K _ Hq) as (A1 & A2 & A3). destruct (K _ Hr) as (B1 & B2 & B3).
  split; [|split; [|split; [reflexivity|]]].
  - apply Forall_cons; [exact A1|]. apply Forall_cons; [exact B1|apply Forall_nil].
  - apply Forall_cons; [exact A2|]. apply Forall_cons; [exact B2|apply Forall_nil].
  - cbn [value List.length]. rewrite A3, B3. change (16 ^ Z.of_nat 1)%Z with 16%Z. change (16 ^ Z.of_nat 0)%Z with 1%Z. lia.
Qed.
Lemma value_app a b : Forall hex_digit a -> Forall hex_digit b -> value 16 (a ++ b) = (value 16 a * 16 ^ Z.of_nat (List.length b) + value 16 b)%Z.
Proof.
  intros Ha Hb. induction Ha as [|d a Hd _ IH]; [reflexivity|]. cbn [app value]. rewrite IH, app_length, Nat2Z.inj_add, Z.pow_add_r by lia. lia.
Qed.
Lemma hex4_value n : (n < 65536)%N -> Forall hex_digit (hex4 n) /\ Forall printable (hex4 n) /\ List.length (hex4 n) = 4%nat /\ value 16 (hex4 n) = Z.of_N n.
Proof.
  intros Hn. unfold hex4. assert (Hq : (n / 256 < 256)%N) by (apply N.div_lt_upper_bound; lia). assert (Hr : (n mod 256 < 256)%N) by (apply N.mod_lt; lia).
  pose proof (N.div_mod n 256 ltac:(lia)) as E. destruct (hex2_value _ Hq) as (A1 & A2 & A3 & A4). destruct (hex2_value _ Hr) as (B1 & B2 & B3 & B4).
  rewrite app_length, A3, B3. repeat split; try (apply Forall_app; split; assumption).
  rewrite value_app, A4, B4, B3 by assumption. change (16 ^ Z.of_nat 2)%Z with 256%Z. lia.
Qed.
Ltac few := apply Forall_forall; intros k Hk; vm_compute in Hk; unfold printable; lia.
Lemma escaped_char c : (c < 1114112)%N -> Forall printable (escape_char c) /\ ((escape_char c = [c] /\ c <> 92%N /\ printable c) \/ escape (escape_char c) c).
Proof.
  intros Hc. unfold escape_char.
  destruct (c =? 92)%N eqn:E1; [replace c with 92%N by lia; split; [|right; apply ES_backslash]; few|].
  destruct (c =? 10)%N eqn:E2; [replace c with 10%N by lia; split; [|right; apply ES_line_feed]; few|].
  destruct (c =? 13)%N eqn:E3; [replace c with 13%N by lia; split; [|right; apply ES_return]; few|].
  destruct (c =? 9)%N eqn:E4; [replace c with 9%N by lia; split; [|right; apply ES_tab]; few|].
  destruct ((32 <=? c)%N && (c <? 127)%N) eqn:E5.
  { split; [apply Forall_cons; [unfold printable; lia|apply Forall_nil]|left]. unfold printable. repeat split; lia. }
  destruct (c <? 256)%N eqn:E6.
  { destruct (hex2_value c ltac:(lia)) as (A1 & A2 & A3 & A4). split.
    - change (lit "\x") with [92; 120]%N. apply Forall_cons; [unfold printable; lia|]. apply Forall_cons; [unfold printable; lia|]. exact A2.
    - right. replace c with (Z.to_N (value 16 (hex2 c))) at 2 by (rewrite A4; apply N2Z.id). exact (ES_x (hex2 c) A1 A3). }
  destruct (c <? 65536)%N eqn:E7.
  { destruct (hex4_value c ltac:(lia)) as (A1 & A2 & A3 & A4). split.
    - change (lit "\u") with [92; 117]%N. apply Forall_cons; [unfold printable; lia|]. apply Forall_cons; [unfold printable; lia|]. exact A2.
    - right. replace c with (Z.to_N (value 16 (hex4 c))) at 2 by (rewrite A4; apply N2Z.id). exact (ES_u (hex4 c) A1 A3). }
  assert (Hq : (c / 65536 < 65536)%N) by (apply N.div_lt_upper_bound; lia). assert (Hr : (c mod 65536 < 65536)%N) by (apply N.mod_lt; lia).
  pose proof (N.div_mod c 65536 ltac:(lia)) as E. destruct (hex4_value _ Hq) as (A1 & A2 & A3 & A4). destruct (hex4_value _ Hr) as (B1 & B2 & B3 & B4).
  assert (V : value 16 (hex4 (c / 65536) ++ hex4 (c mod 65536)) = Z.of_N c).
  { rewrite value_app, A4, B4, B3 by assumption. change (16 ^ Z.of_nat 4)%Z with 65536%Z. lia. }
  split.
  - change (lit "\U") with [92; 85]%N. apply Forall_cons; [unfold printable; lia|]. apply Forall_cons; [unfold printable; lia|]. apply Forall_app. split; assumption.
  - right. replace c with (Z.to_N (value 16 (hex4 (c / 65536) ++ hex4 (c mod 65536)))) at 3 by (rewrite V; apply N2Z.id).
    apply (ES_U (hex4 (c / 65536) ++ hex4 (c mod 65536))); [apply Forall_app; split; assumption|rewrite app_length, A3, B3; reflexivity|rewrite V; lia].
Qed.
Lemma quoted_denotes q t : quote q -> Forall (fun c => (c < 1114112)%N /\ c <> q) t -> denotes (inside q) (flat_map escape_char t) t.
Proof.
  intros Hq H. induction H as [|c t [Hc Hn] _ IH]; [apply DN_end|]. cbn [flat_map].
  destruct (escaped_char c Hc) as [_ [(-> & K1 & K2)|K]].
  - cbn [app]. apply DN_char; [|exact K1|exact IH]. unfold inside, printable in *. lia.
  - apply DN_escape; assumption.
Qed.
Lemma quoted_printable t : Forall (fun c => (c < 1114112)%N) t -> Forall printable (flat_map escape_char t).
Proof. induction 1 as [|c t Hc _ IH]; [apply Forall_nil|]. cbn [flat_map]. apply Forall_app. split; [apply escaped_char; exact Hc|exact IH]. Qed.

(** ** Calls *)
Lemma call_offered_with ec name vs v : offers ec name -> (forall cx input, exists f, dict_get name (core ++ more cx input) = Some f /\ forall st, f vs st = Ok (v, st)) -> is_term (NList vs) = true ->
  call_yields ec name vs (builtin_result v).
Proof.
  intros (cx & input & Hb) Hf Ht. destruct (Hf cx input) as (f & Hg & Hv). intros parse a args e s e2 s2 file pos <- Hu Ha. apply evals_fin.
  assert (Hfn : evals ec parse (NVar (RList []) a) e s (NBuiltin a) e s).
  { exists 1%nat. cbn [yueval eval_body]. unfold eval_var, ebind, get_env. rewrite (lookup_unknown e _ Hu).
    unfold find_builtin, lift_m, bind, get_st, ret. rewrite Hb, Hg. reflexivity. }
  rewrite (apply_fin ec parse _ args [] file pos e s _ e s _ e2 s2 _ Hfn Ha). unfold apply_rest. cbn [as_closure named_unexpected].
  split; [discriminate|]. exists O. unfold apply_builtin, find_builtin, ebind, lift_m, bind, get_st, ret. rewrite Hb, Hg. cbn [option_map].
  unfold apply_function. rewrite Ht. unfold ebind, lift_m. rewrite Hv. reflexivity.
Qed.
Section Calls.
Variable ec : ectx.
Lemma call_unq x u t : offers ec (lit "unq") -> string_value x u -> (forall cx, unq cx u = t) -> call_yields ec (lit "unq") [x] (NRaw t).
Proof.
  unfold string_value. intros Ho Hx Hu. apply (call_offered_with ec _ [x] (NRaw t) Ho); [|cbn [is_term forallb]; rewrite (string_term x u Hx); reflexivity].
  intros cx input. exists (b_unq cx). split; [reflexivity|]. intros st. unfold b_unq, arg1.
  destruct x; cbn [str_of] in Hx; try discriminate Hx; injection Hx as <-; cbn [str_of]; rewrite Hu; reflexivity.
Qed.
Lemma call_unq_literal x q w t : offers ec (lit "unq") -> quote q -> string_value x (q :: w ++ [q]) -> denotes (inside q) w t -> call_yields ec (lit "unq") [x] (NRaw t).
Proof. intros Ho Hq Hx Hw. apply (call_unq x _ t Ho Hx). intros cx. apply unq_literal; assumption. Qed.
Lemma call_unq_unquoted x w t : offers ec (lit "unq") -> (forall q r, w = q :: r -> ~ quote q) -> string_value x w -> denotes ascii w t -> call_yields ec (lit "unq") [x] (NRaw t).
Proof. intros Ho Hq Hx Hw. apply (call_unq x _ t Ho Hx). intros cx. apply unq_unquoted; assumption. Qed.
Lemma call_strlen_literal s q w t : offers ec (lit "strlen") -> quote q -> s_txt s = q :: w ++ [q] -> denotes (inside q) w t -> call_yields ec (lit "strlen") [NStr s] (NInt (Z.of_nat (List.length t))).
Proof.
  intros Ho Hq Hx Hw. apply (call_offered_with ec _ [NStr s] (NInt (Z.of_nat (List.length t))) Ho); [|reflexivity].
  intros cx input. exists (b_strlen cx). split; [reflexivity|]. intros st. unfold b_strlen, arg1. rewrite Hx, (unq_literal cx q w t Hq Hw). reflexivity.
Qed.
Lemma call_quoted x t : offers ec (lit "q") -> offers ec (lit "qs") -> offers ec (lit "unq") -> string_value x t -> Forall (fun c => (c < 1114112)%N) t ->
  exists w, Forall printable w /\ call_yields ec (lit "q") [x] (NRaw (34%N :: w ++ [34%N])) /\ call_yields ec (lit "qs") [x] (NRaw (39%N :: w ++ [39%N])) /\
    (~ In 34%N t -> denotes (inside 34) w t /\ call_yields ec (lit "unq") [NRaw (34%N :: w ++ [34%N])] (NRaw t)) /\
    (~ In 39%N t -> denotes (inside 39) w t /\ call_yields ec (lit "unq") [NRaw (39%N :: w ++ [39%N])] (NRaw t)).
Proof.
  unfold string_value. intros O1 O2 O3 Hx Ht. exists (flat_map escape_char t). split; [apply quoted_printable; exact Ht|].
  assert (K : forall q, quote q -> ~ In q t -> denotes (inside q) (flat_map escape_char t) t /\ call_yields ec (lit "unq") [NRaw (q :: flat_map escape_char t ++ [q])] (NRaw t)).
  { intros q Hq Hi. assert (D : denotes (inside q) (flat_map escape_char t) t).
    { apply quoted_denotes; [exact Hq|]. rewrite Forall_forall in *. intros c Hc. split; [apply Ht; exact Hc|]. intros ->. contradiction. }
    split; [exact D|]. eapply call_unq_literal; [exact O3|exact Hq|reflexivity|exact D]. }
  repeat split; try (apply K; [left; reflexivity|assumption]); try (apply K; [right; reflexivity|assumption]).
  - apply (call_offered ec _ (b_quoted 34) [x] (NRaw (34%N :: flat_map escape_char t ++ [34%N])) O1); [reflexivity|cbn [is_term forallb]; rewrite (string_term x t Hx); reflexivity|].
    intros st. unfold b_quoted, arg1. destruct x; cbn [str_of] in Hx; try discriminate Hx; injection Hx as <-; reflexivity.
  - apply (call_offered ec _ (b_quoted 39) [x] (NRaw (39%N :: flat_map escape_char t ++ [39%N])) O2); [reflexivity|cbn [is_term forallb]; rewrite (string_term x t Hx); reflexivity|].
    intros st. unfold b_quoted, arg1. destruct x; cbn [str_of] in Hx; try discriminate Hx; injection Hx as <-; reflexivity.
Qed.
(** a text with a quotation mark *)
Lemma escape_head e c w x r : escape e c -> e ++ w = x :: r -> x = 92%N.
Proof. destruct 1; cbn [app]; intros E; injection E; intros; congruence. Qed.
Lemma denotes_first_quote q a b t : quote q -> ~ In 92%N a -> ~ denotes (inside q) (a ++ q :: b) t.
Proof.
  intros Hq Ha. revert t. induction a as [|c a IH]; intros t D.
  - cbn [app] in D. remember (q :: b) as u eqn:Eu. destruct D as [|c w t Hp _ _|e c w t He _|ds w t _ _ _ _|w t _|e w t _ _ _]; try discriminate Eu.
    + injection Eu as -> _. unfold inside in Hp. tauto.
    + apply (escape_head e c w q b He) in Eu. unfold quote in Hq. lia.
    + injection Eu as E _. unfold quote in Hq. lia.
    + injection Eu as E _. unfold quote in Hq. lia.
    + injection Eu as E _. unfold quote in Hq. lia.
  - assert (Hc : c <> 92%N) by (intros ->; apply Ha; left; reflexivity). assert (Ha' : ~ In 92%N a) by (intros H; apply Ha; right; exact H).
    cbn [app] in D. remember (c :: a ++ q :: b) as u eqn:Eu. destruct D as [|c' w t Hp _ D|e c' w t He _|ds w t _ _ _ _|w t _|e w t _ _ _]; try discriminate Eu.
    + injection Eu as -> ->. exact (IH Ha' t D).
    + apply (escape_head e c' w c _ He) in Eu. contradiction.
    + injection Eu as E _. congruence.
    + injection Eu as E _. congruence.
    + injection Eu as E _. congruence.
Qed.
End Calls.
