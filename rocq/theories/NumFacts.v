(** Numbers (proofs only). *)
From Coq Require Import List NArith ZArith Bool Lia.
From Coq Require Import ZifyBool ZifyNat ZifyN.
From Verif Require Import PyStr Ast Lex PyStrFacts LexSpec LexFacts.
Import ListNotations.
Open Scope N_scope.

Lemma is_digit_spec c : is_digit c = true <-> decimal_digit c.
Proof. unfold is_digit, decimal_digit. lia. Qed.
Lemma is_hex_spec c : is_hex c = true <-> hex_digit c.
Proof. unfold is_hex, is_digit, hex_digit, decimal_digit. lia. Qed.
Lemma is_oct_spec c : is_oct c = true <-> oct_digit c.
Proof. unfold is_oct, oct_digit. lia. Qed.
Lemma is_bin_spec c : is_bin c = true <-> bin_digit c.
Proof. unfold is_bin, bin_digit. lia. Qed.

Lemma digit_val_eq c : hex_digit c -> digit_val c = digit_value c.
Proof.
  unfold digit_val, digit_value, is_digit, hex_digit, decimal_digit. intros H.
  destruct ((48 <=? c) && (c <=? 57)) eqn:E1; [lia|].
  destruct ((97 <=? c) && (c <=? 102)) eqn:E2; [lia|].
  destruct ((65 <=? c) && (c <=? 70)) eqn:E3; lia.
Qed.
Lemma digits_val_acc base ds acc : Forall hex_digit ds ->
  digits_val base acc ds = (acc * base ^ Z.of_nat (length ds) + value base ds)%Z.
Proof.
  intros H; revert acc. induction H as [|c ds Hc H IH]; intros acc.
  - cbn. lia.
  - cbn [digits_val value length]. rewrite IH, digit_val_eq by exact Hc.
    rewrite Nat2Z.inj_succ, Z.pow_succ_r by lia. ring.
Qed.
Lemma digits_val_value base ds : Forall hex_digit ds -> digits_val base 0 ds = value base ds.
Proof. intros H. rewrite digits_val_acc by exact H. lia. Qed.

Lemma dec_hex ds : Forall decimal_digit ds -> Forall hex_digit ds.
Proof. apply Forall_impl. intros c; left; assumption. Qed.
Lemma oct_hex ds : Forall oct_digit ds -> Forall hex_digit ds.
Proof. apply Forall_impl. unfold oct_digit, hex_digit, decimal_digit; lia. Qed.
Lemma bin_hex ds : Forall bin_digit ds -> Forall hex_digit ds.
Proof. apply Forall_impl. unfold bin_digit, hex_digit, decimal_digit; lia. Qed.
Lemma zeros_value base ds : Forall (eq 48) ds -> value base ds = 0%Z.
Proof. induction 1 as [|c ds <- H IH]; [reflexivity|]. cbn [value]. rewrite IH. reflexivity. Qed.

(** strip *)
Lemma lstrip_id s : match s with [] => True | c :: _ => py_isspace c = false end -> lstrip s = s.
Proof. destruct s as [|c s]; [reflexivity|]. cbn [lstrip]. intros ->. reflexivity. Qed.
Lemma rstrip_id s : Forall (fun c => py_isspace c = false) s -> rstrip s = s.
Proof.
  induction 1 as [|c s Hc H IH]; [reflexivity|]. cbn [rstrip]. rewrite IH.
  destruct s; [rewrite Hc|]; reflexivity.
Qed.
Lemma strip_id s : Forall (fun c => py_isspace c = false) s -> strip s = s.
Proof.
  intros H. unfold strip. rewrite lstrip_id; [apply rstrip_id, H|]. destruct H; [exact I|assumption].
Qed.

Definition is_word_char (c : char) : Prop := letter c \/ decimal_digit c.
Lemma hex_word c : hex_digit c -> is_word_char c.
Proof. unfold is_word_char, letter, hex_digit, decimal_digit. lia. Qed.
Lemma hex_words ds : Forall hex_digit ds -> Forall is_word_char ds.
Proof. apply Forall_impl. exact hex_word. Qed.
Lemma literal_chars body v : int_literal body v -> Forall is_word_char body.
Proof.
  destruct 1 as [d ds Hd H _|x d ds Hx Hd H|x d ds Hx Hd H|x d ds Hx Hd H].
  - apply hex_words, dec_hex. constructor; assumption.
  - constructor; [right; unfold decimal_digit; lia|]. constructor; [left; unfold letter; lia|].
    apply hex_words. constructor; assumption.
  - constructor; [right; unfold decimal_digit; lia|]. constructor; [left; unfold letter; lia|].
    apply hex_words, oct_hex. constructor; assumption.
  - constructor; [right; unfold decimal_digit; lia|]. constructor; [left; unfold letter; lia|].
    apply hex_words, bin_hex. constructor; assumption.
Qed.
Lemma word_not_space c : is_word_char c -> py_isspace c = false.
Proof. unfold is_word_char, letter, decimal_digit, py_isspace. lia. Qed.

Lemma py_int0_body body v : int_literal body v -> py_int0_unsigned body = Some v.
Proof.
  destruct 1 as [d ds Hd H Hz|x d ds Hx Hd H|x d ds Hx Hd H|x d ds Hx Hd H].
  - unfold py_int0_unsigned. destruct (d =? 48) eqn:E.
    + apply N.eqb_eq in E; subst d. destruct Hz as [Hz|Hz]; [congruence|].
      transitivity (Some 0%Z); [|f_equal; symmetry; apply zeros_value; constructor; [reflexivity|exact Hz]].
      destruct ds as [|e ds]; [reflexivity|].
      assert (He := Forall_inv Hz). subst e. cbn [N.eqb Pos.eqb orb andb].
      match goal with |- context [forallb ?g ?l] => replace (forallb g l) with true; [reflexivity|] end.
      symmetry. apply (forallb_Forall (N.eqb 48) (eq 48)); [|exact Hz]. intros c. apply N.eqb_eq.
    + replace (forallb is_digit (d :: ds)) with true.
      * rewrite digits_val_value; [reflexivity|]. apply dec_hex. constructor; assumption.
      * symmetry. apply (forallb_Forall is_digit decimal_digit _ is_digit_spec). constructor; assumption.
  - cbn [py_int0_unsigned]. change (48 =? 48) with true. cbn iota.
    replace ((x =? 120) || (x =? 88)) with true by lia.
    replace (forallb is_hex (d :: ds)) with true.
    + cbn [andb negb length Nat.eqb]. rewrite digits_val_value by (constructor; assumption). reflexivity.
    + symmetry. apply (forallb_Forall is_hex hex_digit _ is_hex_spec). constructor; assumption.
  - cbn [py_int0_unsigned]. change (48 =? 48) with true. cbn iota.
    replace ((x =? 120) || (x =? 88)) with false by lia.
    replace ((x =? 111) || (x =? 79)) with true by lia.
    replace (forallb is_oct (d :: ds)) with true.
    + cbn [andb negb length Nat.eqb]. rewrite digits_val_value by (apply oct_hex; constructor; assumption). reflexivity.
    + symmetry. apply (forallb_Forall is_oct oct_digit _ is_oct_spec). constructor; assumption.
  - cbn [py_int0_unsigned]. change (48 =? 48) with true. cbn iota.
    replace ((x =? 120) || (x =? 88)) with false by lia.
    replace ((x =? 111) || (x =? 79)) with false by lia.
    replace ((x =? 98) || (x =? 66)) with true by lia.
    replace (forallb is_bin (d :: ds)) with true.
    + cbn [andb negb length Nat.eqb]. rewrite digits_val_value by (apply bin_hex; constructor; assumption). reflexivity.
    + symmetry. apply (forallb_Forall is_bin bin_digit _ is_bin_spec). constructor; assumption.
Qed.
Lemma py_int0_signed sg sf body v :
  sign_of sg sf -> int_literal body v -> py_int0 (sg ++ body) = Some (sf v).
Proof.
  intros Hs H. assert (Hc := literal_chars _ _ H). assert (Hb := py_int0_body _ _ H).
  unfold py_int0. rewrite strip_id.
  - destruct Hs; cbn [app].
    + destruct body as [|c body]; [inversion H|]. apply Forall_inv in Hc.
      replace (c =? 45) with false by (unfold is_word_char, letter, decimal_digit in Hc; lia).
      replace (c =? 43) with false by (unfold is_word_char, letter, decimal_digit in Hc; lia).
      exact Hb.
    + exact Hb.
    + cbn. rewrite Hb. reflexivity.
  - apply Forall_app. split; [destruct Hs; repeat constructor|].
    eapply Forall_impl; [|exact Hc]. exact word_not_space.
Qed.

(** matching *)
Lemma sign_skip sg sf sp t :
  sign_of sg sf -> match t with [] => False | c :: _ => sp c = false /\ is_sign c = false end ->
  sign_space_len sp (sg ++ t) = length sg.
Proof.
  intros Hs Ht. unfold sign_space_len. destruct t as [|c t]; [destruct Ht|]. destruct Ht as [H1 H2].
  destruct Hs; cbn [app opt_len].
  - rewrite H2. cbn. rewrite H1. reflexivity.
  - change (is_sign 43) with true. cbn. rewrite H1. reflexivity.
  - change (is_sign 45) with true. cbn. rewrite H1. reflexivity.
Qed.

Lemma body_head body v : int_literal body v ->
  exists c r, body = c :: r /\ decimal_digit c.
Proof.
  destruct 1; eexists _, _; (split; [reflexivity|]); unfold decimal_digit in *; lia.
Qed.

Definition ends_ok (suf rest : text) : Prop := long_suffix suf /\ number_ends rest.
Lemma ends_stops suf rest (p : char -> bool) :
  ends_ok suf rest -> (forall c, p c = true -> decimal_digit c \/ (97 <= c <= 102) \/ (65 <= c <= 70)) ->
  match suf ++ rest with [] => True | c :: _ => p c = false end.
Proof.
  intros [Hs [Hr _]] Hp.
  assert (Hno : forall c, ~ (decimal_digit c \/ (97 <= c <= 102) \/ (65 <= c <= 70)) -> p c = false).
  { intros c Hc. destruct (p c) eqn:E; [|reflexivity]. exfalso. apply Hc, Hp, E. }
  destruct Hs as [->|[->| ->]]; cbn [app].
  - destruct rest as [|c rest]; [exact I|]. cbn in Hr. apply Hno.
    unfold letter, decimal_digit in *. lia.
  - apply Hno. unfold decimal_digit. lia.
  - apply Hno. unfold decimal_digit. lia.
Qed.

Lemma not_float sg sf body v suf rest :
  sign_of sg sf -> int_literal body v -> ends_ok suf rest ->
  re_FLOAT (sg ++ body ++ suf ++ rest) = None.
Proof.
  intros Hs H He. unfold re_FLOAT.
  destruct (body_head _ _ H) as (c & r & E & Hc).
  rewrite (sign_skip sg sf); [|exact Hs|].
  2:{ rewrite E. cbn [app]. unfold is_sign, decimal_digit in *. lia. }
  rewrite skipn_length_app.
  assert (Hdig : exists k, span_len is_digit (body ++ suf ++ rest) = S k /\
     match skipn (S k) (body ++ suf ++ rest) with
     | d :: r => if d =? 46 then span_len is_digit r = O else True
     | [] => True end).
  { destruct H as [d ds Hd H Hz|x d ds Hx Hd H|x d ds Hx Hd H|x d ds Hx Hd H].
    - exists (length ds). change (S (length ds)) with (length (d :: ds)).
      rewrite span_len_app.
      + split; [reflexivity|]. rewrite skipn_length_app.
        destruct He as [Hsuf [Hr1 Hr2]]. destruct Hsuf as [->|[->| ->]]; cbn [app]; try exact I.
        destruct rest as [|d1 rest]; [exact I|]. destruct (d1 =? 46) eqn:E1; [|exact I].
        apply N.eqb_eq in E1; subst d1. destruct rest as [|d2 rest]; [reflexivity|].
        specialize (Hr2 d2 rest eq_refl). cbn [span_len]. rewrite <- is_digit_spec in Hr2.
        destruct (is_digit d2); [contradiction Hr2; reflexivity|reflexivity].
      + apply (forallb_Forall is_digit decimal_digit _ is_digit_spec). constructor; assumption.
      + apply (ends_stops _ _ _ He). intros e. rewrite is_digit_spec. auto.
    - exists O. cbn [app span_len]. change (is_digit 48) with true. cbn iota.
      replace (is_digit x) with false by (unfold is_digit; lia). split; [reflexivity|].
      cbn [skipn]. replace (x =? 46) with false by lia. exact I.
    - exists O. cbn [app span_len]. change (is_digit 48) with true. cbn iota.
      replace (is_digit x) with false by (unfold is_digit; lia). split; [reflexivity|].
      cbn [skipn]. replace (x =? 46) with false by lia. exact I.
    - exists O. cbn [app span_len]. change (is_digit 48) with true. cbn iota.
      replace (is_digit x) with false by (unfold is_digit; lia). split; [reflexivity|].
      cbn [skipn]. replace (x =? 46) with false by lia. exact I. }
  destruct Hdig as (k & -> & Hk).
  destruct (skipn (S k) (body ++ suf ++ rest)) as [|d r']; [reflexivity|].
  destruct (d =? 46); [rewrite Hk|]; reflexivity.
Qed.

Lemma opt_len_suf suf rest : ends_ok suf rest -> opt_len is_l (suf ++ rest) = length suf.
Proof.
  intros [[->|[->| ->]] [Hr _]]; cbn [app opt_len]; try reflexivity.
  destruct rest as [|c rest]; [reflexivity|]. cbn in Hr |- *.
  replace (is_l c) with false by (unfold is_l, letter in *; lia). reflexivity.
Qed.
Lemma opt_len_rest rest : number_ends rest -> opt_len is_l rest = O.
Proof. intros H. apply (opt_len_suf []). split; [left; reflexivity|exact H]. Qed.

Lemma int_body body v suf rest :
  int_literal body v -> ends_ok suf rest ->
  exists k, int_body_len (body ++ suf ++ rest) = Some k /\
    (k + opt_len is_l (skipn k (body ++ suf ++ rest)) = length body + length suf)%nat.
Proof.
  intros H He. destruct H as [d ds Hd H Hz|x d ds Hx Hd H|x d ds Hx Hd H|x d ds Hx Hd H].
  - assert (Hds : span_len is_digit (ds ++ suf ++ rest) = length ds).
    { apply span_len_app.
      - apply (forallb_Forall is_digit decimal_digit _ is_digit_spec), H.
      - apply (ends_stops _ _ _ He). intros e. rewrite is_digit_spec. auto. }
    exists (length (d :: ds)). rewrite skipn_length_app, (opt_len_suf _ _ He). split; [|reflexivity].
    unfold int_body_len. cbn [app]. destruct (d =? 48) eqn:E.
    + apply N.eqb_eq in E; subst d. destruct Hz as [Hz|Hz]; [congruence|].
      destruct ds as [|e ds].
      * cbn [app]. assert (Hh := ends_stops _ _ is_oct He). 
        assert (Hsp : span_len is_oct (suf ++ rest) = O).
        { destruct (suf ++ rest) as [|c t]; [reflexivity|]. cbn [span_len]. rewrite Hh; [reflexivity|].
          intros c'. unfold is_oct, decimal_digit. lia. }
        destruct (suf ++ rest) as [|c t] eqn:Et; [reflexivity|].
        assert (~ ((c =? 88) || (c =? 120) = true) /\ ~ ((c =? 66) || (c =? 98) = true) /\ ~ ((c =? 79) || (c =? 111) = true)) as (N1 & N2 & N3).
        { destruct He as [[->|[->| ->]] [Hr _]]; cbn [app] in Et; try (injection Et as <- _; repeat split; discriminate).
          rewrite Et in Hr. cbn in Hr. unfold letter, decimal_digit in Hr. lia. }
        destruct ((c =? 88) || (c =? 120)); [contradiction N1; reflexivity|].
        destruct ((c =? 66) || (c =? 98)); [contradiction N2; reflexivity|].
        destruct ((c =? 79) || (c =? 111)); [contradiction N3; reflexivity|].
        rewrite Hsp. reflexivity.
      * assert (He' := Forall_inv Hz). subst e. cbn [app N.eqb Pos.eqb orb].
        assert (Ho : span_len is_oct (48 :: ds ++ suf ++ rest) = length (48 :: ds)).
        { change (48 :: ds ++ suf ++ rest) with ((48 :: ds) ++ suf ++ rest). apply span_len_app.
          - apply (forallb_Forall is_oct oct_digit _ is_oct_spec).
            eapply Forall_impl; [|exact Hz]. intros a <-. unfold oct_digit. lia.
          - apply (ends_stops _ _ _ He). intros c. unfold is_oct, decimal_digit. lia. }
        match goal with |- context [span_len is_oct ?l] => replace (span_len is_oct l) with (length (48 :: ds)) by (symmetry; exact Ho) end. reflexivity.
    + replace (is_digit d) with true by (symmetry; apply is_digit_spec, Hd). rewrite Hds. reflexivity.
  - assert (Hds : span_len is_hex ((d :: ds) ++ suf ++ rest) = length (d :: ds)).
    { apply span_len_app.
      - apply (forallb_Forall is_hex hex_digit _ is_hex_spec). constructor; assumption.
      - apply (ends_stops _ _ _ He). intros e. rewrite is_hex_spec. auto. }
    unfold int_body_len. change (48 :: x :: d :: ds) with ([48; x] ++ (d :: ds)).
    rewrite <- app_assoc. cbn [app]. change (48 =? 48) with true. cbn iota beta zeta.
    replace ((x =? 88) || (x =? 120)) with true by lia.
    change (d :: ds ++ suf ++ rest) with ((d :: ds) ++ suf ++ rest). rewrite Hds. cbn [length].
    eexists. split; [reflexivity|].
    change (48 :: x :: (d :: ds) ++ suf ++ rest) with ((48 :: x :: d :: ds) ++ suf ++ rest).
    change (S (S (S (length ds)))) with (length (48 :: x :: d :: ds)).
    rewrite skipn_length_app. rewrite (opt_len_suf _ _ He).
match goal with |- context [skipn ?n ?l] => replace (skipn n l) with rest end.
    + rewrite opt_len_rest by apply He. cbn [length]. lia.
    + rewrite <- skipn_skipn', skipn_length_app, skipn_length_app. reflexivity.
  - assert (Hds : span_len is_oct ((d :: ds) ++ suf ++ rest) = length (d :: ds)).
    { apply span_len_app.
      - apply (forallb_Forall is_oct oct_digit _ is_oct_spec). constructor; assumption.
      - apply (ends_stops _ _ _ He). intros e. unfold is_oct, decimal_digit. lia. }
    unfold int_body_len. change (48 :: x :: d :: ds) with ([48; x] ++ (d :: ds)).
    rewrite <- app_assoc. cbn [app]. change (48 =? 48) with true. cbn iota beta zeta.
    replace ((x =? 88) || (x =? 120)) with false by lia.
    replace ((x =? 66) || (x =? 98)) with false by lia.
    replace ((x =? 79) || (x =? 111)) with true by lia.
    change (d :: ds ++ suf ++ rest) with ((d :: ds) ++ suf ++ rest). rewrite Hds. cbn [length].
    eexists. split; [reflexivity|].
    change (48 :: x :: (d :: ds) ++ suf ++ rest) with ((48 :: x :: d :: ds) ++ suf ++ rest).
    change (S (S (S (length ds)))) with (length (48 :: x :: d :: ds)).
    rewrite skipn_length_app, (opt_len_suf _ _ He). reflexivity.
  - assert (Hds : span_len is_bin ((d :: ds) ++ suf ++ rest) = length (d :: ds)).
    { apply span_len_app.
      - apply (forallb_Forall is_bin bin_digit _ is_bin_spec). constructor; assumption.
      - apply (ends_stops _ _ _ He). intros e. unfold is_bin, decimal_digit. lia. }
    unfold int_body_len. change (48 :: x :: d :: ds) with ([48; x] ++ (d :: ds)).
    rewrite <- app_assoc. cbn [app]. change (48 =? 48) with true. cbn iota beta zeta.
    replace ((x =? 88) || (x =? 120)) with false by lia.
    replace ((x =? 66) || (x =? 98)) with true by lia.
    change (d :: ds ++ suf ++ rest) with ((d :: ds) ++ suf ++ rest). rewrite Hds. cbn [length].
    eexists. split; [reflexivity|].
    change (48 :: x :: (d :: ds) ++ suf ++ rest) with ((48 :: x :: d :: ds) ++ suf ++ rest).
    change (S (S (S (length ds)))) with (length (48 :: x :: d :: ds)).
    rewrite skipn_length_app, (opt_len_suf _ _ He). reflexivity.
Qed.

Lemma number_int sg sf body v suf rest f p :
  sign_of sg sf -> int_literal body v -> long_suffix suf -> number_ends rest ->
  ps_number (Src (sg ++ body ++ suf ++ rest) f p)
  = Ok (Src rest f (p + Z.of_nat (length (sg ++ body ++ suf))), Some (NInt (sf v))).
Proof.
  intros Hs H Hsuf Hr. assert (He : ends_ok suf rest) by (split; assumption).
  unfold ps_number. cbn [s_txt]. rewrite (not_float _ _ _ _ _ _ Hs H He).
  assert (Hre : re_INT (sg ++ body ++ suf ++ rest) = Some (length (sg ++ body ++ suf))).
  { unfold re_INT. destruct (body_head _ _ H) as (c & r & E & Hc).
    rewrite (sign_skip sg sf); [|exact Hs|].
    2:{ rewrite E. cbn [app]. unfold is_sign, ps_SPACE, decimal_digit in *. lia. }
    rewrite skipn_length_app. destruct (int_body _ _ _ _ H He) as (k & -> & Hk).
    rewrite <- skipn_skipn', skipn_length_app. f_equal. rewrite !app_length. lia. }
  rewrite Hre. replace (sg ++ body ++ suf ++ rest) with ((sg ++ body ++ suf) ++ rest)
    by (rewrite <- !app_assoc; reflexivity).
  rewrite firstn_length_app, sfrom_app.
  assert (Hleg : (if is_l (last (sg ++ body ++ suf) 0) then removelast (sg ++ body ++ suf)
                  else sg ++ body ++ suf) = sg ++ body).
  { destruct Hsuf as [->|[->| ->]].
    - rewrite app_nil_r. replace (is_l (last (sg ++ body) 0)) with false; [reflexivity|].
      symmetry. assert (Hne : body <> []) by (intros ->; inversion H).
      assert (Hlast : exists d, last body 0 = d /\ (hex_digit d)).
      { destruct H as [d ds Hd H _|x d ds Hx Hd H|x d ds Hx Hd H|x d ds Hx Hd H].
        1: assert (F : Forall hex_digit (d :: ds)) by (apply dec_hex; constructor; assumption).
        2: assert (F : Forall hex_digit (d :: ds)) by (constructor; assumption).
        3: assert (F : Forall hex_digit (d :: ds)) by (apply oct_hex; constructor; assumption).
        4: assert (F : Forall hex_digit (d :: ds)) by (apply bin_hex; constructor; assumption).
        all: eexists; (split; [reflexivity|]).
        all: try change (last (48 :: x :: d :: ds) 0) with (last (d :: ds) 0).
        all: rewrite Forall_forall in F; apply F.
        all: destruct (exists_last (l := d :: ds)) as (l' & e & El); [discriminate|];
          rewrite El, last_last; apply in_or_app; right; left; reflexivity. }
      destruct Hlast as (d & Hd & Hx).
      destruct (exists_last Hne) as (l' & e & El). rewrite El, last_last in Hd. subst e.
      rewrite El, app_assoc, last_last. unfold is_l, hex_digit, decimal_digit in *. lia.
    - rewrite app_assoc, last_last. change (is_l 108) with true. apply removelast_last.
    - rewrite app_assoc, last_last. change (is_l 76) with true. apply removelast_last. }
  cbn zeta. rewrite Hleg, (py_int0_signed _ _ _ _ Hs H). reflexivity.
Qed.

(** What [str] prints for an integer reads back as that integer. *)
From Coq Require DecimalPos DecimalFacts.
Lemma uint_text_digits u : Forall decimal_digit (uint_text u).
Proof. induction u; cbn [uint_text]; constructor; try assumption; unfold decimal_digit; lia. Qed.
Lemma uint_text_length u : length (uint_text u) = Decimal.nb_digits u.
Proof. induction u; cbn; try rewrite IHu; reflexivity. Qed.
Lemma value_lower u acc :
  (acc * 10 ^ Z.of_nat (length (uint_text u)) + value 10 (uint_text u))%Z
  = match acc with
    | Zpos a => Z.pos (Pos.of_uint_acc u a)
    | _ => (acc * 10 ^ Z.of_nat (length (uint_text u)) + value 10 (uint_text u))%Z
    end.
Proof.
  destruct acc as [|a|a]; [reflexivity| |reflexivity]. revert a.
  induction u; intros a; cbn [uint_text Pos.of_uint_acc length value];
    [change (Z.of_nat 0) with 0%Z; lia| ..]; rewrite <- IHu;
    rewrite Nat2Z.inj_succ, Z.pow_succ_r by lia;
    match goal with |- context [digit_value ?c] =>
      let v := eval vm_compute in (digit_value c) in change (digit_value c) with v end;
    rewrite ?Pos2Z.inj_add, Pos2Z.inj_mul; ring.
Qed.
Lemma value_of_uint u : Z.of_N (Pos.of_uint u) = value 10 (uint_text u).
Proof.
  induction u; cbn [uint_text Pos.of_uint value]; [reflexivity|
   rewrite IHu; reflexivity| ..];
   match goal with |- context [Pos.of_uint_acc u ?a] =>
     pose proof (value_lower u (Zpos a)) as E; cbn iota in E end;
   cbn [Z.of_N]; rewrite <- E; reflexivity.
Qed.
Lemma pos_text_literal p : int_literal (uint_text (Pos.to_uint p)) (Zpos p).
Proof.
  assert (Hv : value 10 (uint_text (Pos.to_uint p)) = Zpos p).
  { rewrite <- value_of_uint, DecimalPos.Unsigned.of_to. reflexivity. }
  assert (Hd := uint_text_digits (Pos.to_uint p)).
  assert (Hn : Decimal.unorm (Pos.to_uint p) = Pos.to_uint p).
  { rewrite <- (DecimalPos.Unsigned.to_of (Pos.to_uint p)), DecimalPos.Unsigned.of_to. reflexivity. }
  rewrite <- Hv . clear Hv.
  destruct (Pos.to_uint p) as [|u|u|u|u|u|u|u|u|u|u] eqn:E; cbn [uint_text] in *.
  - discriminate.
  - change (Decimal.unorm (Decimal.D0 u)) with (Decimal.unorm u) in Hn. exfalso. assert (Hne := DecimalPos.Unsigned.to_uint_nonzero p).
    assert (Hl : (Decimal.nb_digits (Decimal.unorm u) <= Nat.max 1 (Decimal.nb_digits u))%nat).
    { clear. induction u; [cbn; lia| |cbn; lia..]. change (Decimal.unorm (Decimal.D0 u)) with (Decimal.unorm u). cbn [Decimal.nb_digits]. lia. }
    rewrite Hn in Hl. cbn in Hl. destruct u; cbn in Hn, Hl; try discriminate; try lia.
    + apply Hne. exact E.
  - inversion Hd; subst. apply il_dec; [assumption|assumption|left; discriminate].
  - inversion Hd; subst. apply il_dec; [assumption|assumption|left; discriminate].
  - inversion Hd; subst. apply il_dec; [assumption|assumption|left; discriminate].
  - inversion Hd; subst. apply il_dec; [assumption|assumption|left; discriminate].
  - inversion Hd; subst. apply il_dec; [assumption|assumption|left; discriminate].
  - inversion Hd; subst. apply il_dec; [assumption|assumption|left; discriminate].
  - inversion Hd; subst. apply il_dec; [assumption|assumption|left; discriminate].
  - inversion Hd; subst. apply il_dec; [assumption|assumption|left; discriminate].
  - inversion Hd; subst. apply il_dec; [assumption|assumption|left; discriminate].
Qed.
Lemma Z_text_reads z rest f p :
  number_ends rest ->
  ps_number (Src (Z_text z ++ rest) f p)
  = Ok (Src rest f (p + Z.of_nat (length (Z_text z))), Some (NInt z)).
Proof.
  intros Hr. destruct z as [|q|q]; cbn [Z_text].
  - assert (H := number_int [] (fun v => v) [48] 0 [] rest f p sg_none). cbn [app] in H.
    cbn [app]; rewrite H; [reflexivity| | |exact Hr]; [|left; reflexivity].
    change 0%Z with (value 10 [48]). apply il_dec; [unfold decimal_digit; lia|constructor|right; constructor].
  - assert (H := number_int [] (fun v => v) _ _ [] rest f p sg_none (pos_text_literal q) (or_introl eq_refl) Hr).
    cbn [app] in H. rewrite app_nil_r in H. exact H.
  - assert (H := number_int [45] Z.opp _ _ [] rest f p sg_minus (pos_text_literal q) (or_introl eq_refl) Hr).
    cbn [app] in H. rewrite app_nil_r in H. exact H.
Qed.
