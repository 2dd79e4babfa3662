(** * The parser stops, moves forward and keeps true locations *)
From Coq Require Import List NArith ZArith Bool Lia ZifyBool ZifyNat ZifyN.
From Verif Require Import PyStr PyStrFacts Ast Lex LexSpec LexFacts Parse ParseSpec.
Import ListNotations.
Open Scope N_scope.
Open Scope monad_scope.

Lemma skipn_nth {A} (t : list A) c l : forall i, skipn i t = c :: l -> nth_error t i = Some c.
Proof.
  induction t as [|a t IH]; intros i D; destruct i as [|i]; cbn in *; try discriminate; [congruence|apply IH, D].
Qed.

Section Walk.
Variables (f0 : text) (t0 : text).
Notation len := (length t0).
Definition at_ (i : nat) : source := Src (skipn i t0) (Some f0) (Z.of_nat i).
Definition piece (i j : nat) : source := Src (firstn (j - i) (skipn i t0)) (Some f0) (Z.of_nat i).

Lemma at_from i k : sfrom k (at_ i) = at_ (i + k).
Proof. unfold sfrom, at_. cbn. rewrite skipn_skipn', Nat2Z.inj_add. reflexivity. Qed.
Lemma at_to i k : sto k (at_ i) = piece i (i + k).
Proof. unfold sto, at_, piece. cbn. replace (i + k - i)%nat with k by lia. reflexivity. Qed.
Lemma at_len i : length (s_txt (at_ i)) = (len - i)%nat.
Proof. cbn. apply skipn_length. Qed.
Lemma at_sis c i : sis c (at_ i) = true -> (i < len)%nat.
Proof.
  unfold sis. cbn. intros E. destruct (skipn i t0) eqn:D; [discriminate|].
  assert (length (skipn i t0) <> O) by (rewrite D; discriminate). rewrite skipn_length in H. lia.
Qed.
Lemma at_starts p i : sstarts p (at_ i) = true -> (length p <= len - i)%nat.
Proof. unfold sstarts. cbn. intros E. apply startswith_length in E. rewrite skipn_length in E. exact E. Qed.
Lemma at_span p i : (i <= len)%nat -> (i + span_len p (s_txt (at_ i)) <= len)%nat.
Proof. intros H. pose proof (span_len_le p (s_txt (at_ i))) as L. rewrite at_len in L. lia. Qed.

Lemma gap_at i : (i <= len)%nat -> exists j, (i <= j <= len)%nat /\ gap (at_ i) = at_ j.
Proof.
  intros H. unfold gap, ps_gap. cbn [fst]. rewrite at_from. eexists. split; [|reflexivity].
  pose proof (at_span (fun c => ps_EOL c || ps_SPACE c) i H). lia.
Qed.
Lemma space_at i : (i <= len)%nat -> exists j, (i <= j <= len)%nat /\ fst (ps_space (at_ i)) = at_ j.
Proof.
  intros H. unfold ps_space. cbn [fst]. rewrite at_from. eexists. split; [|reflexivity].
  pose proof (at_span ps_SPACE i H). lia.
Qed.
Lemma eol_at i : (ps_eol (at_ i) = (at_ i, None)) \/ ((i < len)%nat /\ ps_eol (at_ i) = (at_ (i + 1), Some (piece i (i + 1)))).
Proof.
  unfold ps_eol. destruct (s_txt (at_ i)) as [|c l] eqn:E; [left; reflexivity|].
  destruct (ps_EOL c); [right|left; reflexivity]. rewrite at_from, at_to. split; [|reflexivity].
  pose proof (at_len i) as L. rewrite E in L. cbn in L. lia.
Qed.
Lemma atom_at i : (i <= len)%nat -> ps_atom (at_ i) = (at_ i, None) \/
  exists j, (i < j <= len)%nat /\ ps_atom (at_ i) = (at_ j, Some (piece i j)).
Proof.
  intros H. unfold ps_atom. destruct (s_txt (at_ i)) as [|c l] eqn:E; [left; rewrite sfrom_0; reflexivity|].
  destruct (ps_LETTER c); [right|left; rewrite sfrom_0; reflexivity]. rewrite at_from, at_to.
  eexists. split; [|reflexivity]. pose proof (at_len i) as L. rewrite E in L. cbn [length] in L.
  pose proof (span_len_le (fun c => ps_LETTER c || ps_FIGURE c) l). lia.
Qed.

Definition okr {A} (r : res A) (Q : A -> Prop) : Prop :=
  match r with Ok a => Q a | Err _ => True | Fuel => False end.
Definition pg_ok (g : pgen) (j : nat) : Prop :=
  exists i0, pg_sou g = at_ i0 /\ (i0 <= len)%nat /\ (i0 + pg_i g = j)%nat /\ (j <= len)%nat.
Lemma pg_rest_at g j : pg_ok g j -> pg_rest g = at_ j.
Proof. intros (i0 & E & _ & <- & _). unfold pg_rest. rewrite E, at_from. reflexivity. Qed.
Lemma plain_next_ok g j : pg_ok g j -> okr (plain_next g) (fun g' => (j < len)%nat /\ pg_ok g' (S j)).
Proof.
  intros (i0 & E & H & <- & L). unfold plain_next. rewrite E. cbn [s_txt at_].
  destruct (nth_error (skipn i0 t0) (pg_i g)) eqn:D; [|exact I].
  destruct (negb (ps_ANY n)); [exact I|]. cbn. assert (K : (pg_i g < length (skipn i0 t0))%nat) by (apply nth_error_Some; congruence).
  rewrite skipn_length in K. split; [lia|]. exists i0. cbn. repeat split; lia.
Qed.
Lemma plain_until_close_good n : forall g j, pg_ok g j -> (len - j < n)%nat ->
  okr (plain_until_close n g) (fun r => exists j', (j < j' < len)%nat /\ fst r = at_ (S j') /\ pg_ok (snd r) j' /\ pg_sou (snd r) = pg_sou g).
Proof.
  induction n as [|n IH]; intros g j G L; [lia|]. cbn [plain_until_close].
  pose proof (plain_next_ok g j G) as P. destruct (plain_next g) as [g'|e|] eqn:D; cbn in P; try exact P.
  destruct P as [Lj G']. rewrite (pg_rest_at _ _ G').
  assert (Es : pg_sou g' = pg_sou g).
  { unfold plain_next in D. destruct (nth_error _ _); [|discriminate]. destruct (negb _); [discriminate|]. injection D as <-. reflexivity. }
  destruct (sis ch_close (at_ (S j)) && Nat.eqb (pg_pth g') 0) eqn:C.
  - cbn. exists (S j). apply andb_prop in C. destruct C as [C _]. apply at_sis in C. split; [lia|].
    rewrite at_from. split; [f_equal; lia|]. split; [exact G'|exact Es].
  - specialize (IH g' (S j) G' ltac:(lia)). destruct (plain_until_close n g') as [r|e|]; cbn in *; try exact IH.
    destruct IH as (j' & J & A & B & C'). exists j'. split; [lia|]. split; [exact A|]. split; [exact B|]. congruence.
Qed.
Lemma plain_body_good i : (i <= len)%nat ->
  okr (plain_body (at_ i)) (fun r => exists j', (i < j' < len)%nat /\ fst r = at_ (S j') /\ pg_ok (snd r) j' /\ pg_sou (snd r) = at_ i).
Proof.
  intros H. unfold plain_body. apply (plain_until_close_good _ (plain_start (at_ i) 0 0 IndNone) i).
  - exists i. cbn. repeat split; lia.
  - rewrite at_len. lia.
Qed.
Lemma c_literal_tail_le q : forall n t k, (length t <= n)%nat -> c_literal_tail q t = Some k -> (k <= length t)%nat.
Proof.
  induction n as [|n IH]; intros t k L E; (destruct t as [|c r]; [discriminate|]); cbn in L; [lia|].
  cbn in E. destruct (c =? q); [injection E as <-; cbn; lia|]. destruct (c =? ch_bslash).
  - destruct r as [|d r']; [discriminate|]. destruct (d =? 10); [discriminate|].
    destruct (c_literal_tail q r') as [k'|] eqn:D; cbn in E; [|discriminate]. injection E as <-.
    cbn in L. apply IH in D; [cbn; lia|lia].
  - destruct (c_literal_tail q r) as [k'|] eqn:D; cbn in E; [|discriminate]. injection E as <-. apply IH in D; [cbn; lia|lia].
Qed.
Lemma c_literal_le q t k : c_literal q t = Some k -> (0 < k <= length t)%nat.
Proof.
  unfold c_literal. destruct t as [|c r]; [discriminate|]. destruct (c =? q); [|discriminate].
  destruct (c_literal_tail q r) eqn:D; cbn; [|discriminate]. intros E. injection E as <-.
  apply (c_literal_tail_le q (length r)) in D; [|lia]. lia.
Qed.
Lemma py_head_tail_le q : forall n t kb, (length t <= n)%nat -> py_head_tail q t = Some kb -> (fst kb <= length t)%nat.
Proof.
  induction n as [|n IH]; intros t k L E; (destruct t as [|c r]; [discriminate|]); cbn in L; [lia|].
  cbn in E. destruct (c =? q); [injection E as <-; cbn; lia|]. destruct (c =? 10); [discriminate|]. destruct (c =? ch_bslash).
  - destruct r as [|d r']; [discriminate|]. destruct (d =? 10); [injection E as <-; cbn; lia|].
    destruct (py_head_tail q r') as [k'|] eqn:D; cbn in E; [|discriminate]. injection E as <-.
    cbn in L. apply IH in D; [cbn; lia|lia].
  - destruct (py_head_tail q r) as [k'|] eqn:D; cbn in E; [|discriminate]. injection E as <-. apply IH in D; [cbn; lia|lia].
Qed.
Lemma py_tail3_le q : forall n t k, (length t <= n)%nat -> py_tail3 q t = Some k -> (k <= length t)%nat.
Proof.
  induction n as [|n IH]; intros t k L E; (destruct t as [|c r]; [discriminate|]); cbn in L; [lia|].
  cbn [py_tail3] in E. destruct (c =? q).
  - destruct (startswith [q; q] r) eqn:S2; [injection E as <-; apply startswith_length in S2; cbn in *; lia|].
    destruct (py_tail3 q r) as [k'|] eqn:D; cbn in E; [|discriminate]. injection E as <-. apply IH in D; [cbn; lia|lia].
  - destruct (c =? ch_bslash).
    + destruct r as [|d r']; [discriminate|]. destruct (d =? 10); [discriminate|].
      destruct (py_tail3 q r') as [k'|] eqn:D; cbn in E; [|discriminate]. injection E as <-.
      cbn in L. apply IH in D; [cbn; lia|lia].
    + destruct (py_tail3 q r) as [k'|] eqn:D; cbn in E; [|discriminate]. injection E as <-. apply IH in D; [cbn; lia|lia].
Qed.
Lemma getline_le t : (getline_len t <= length t)%nat.
Proof. induction t as [|c r IH]; cbn; [lia|]. destruct (c =? 10); lia. Qed.
Lemma py_tail_lines_ok n : forall q single p t, (length t < n)%nat ->
  okr (py_tail_lines n q single p t) (fun k => (p <= k <= p + length t)%nat).
Proof.
  induction n as [|n IH]; intros q single p t L; [lia|]. cbn [py_tail_lines].
  set (ln := firstn (getline_len t) t).
  assert (Lf : (length ln <= length t)%nat) by (unfold ln; rewrite firstn_length; lia).
  clearbody ln. assert (Ln : ln = [] \/ (0 < length ln)%nat) by (destruct ln; [left; reflexivity|right; cbn; lia]).
  destruct Ln as [->|Ln]; [exact I|].
  assert (Q : okr match (if single then py_tail1 q ln else py_tail3 q ln) with
          | Some k => Ok (p + k)%nat
          | None =>
              if single && negb (is_continued ln)
              then Err (Exn SyntaxError "ps_string_python: multi-line string continuation expected")
              else py_tail_lines n q single (p + length ln) (skipn (length ln) t)
          end (fun k => (p <= k <= p + length t)%nat)).
  2:{ destruct ln; [cbn in Ln; lia|exact Q]. }
  destruct (if single then py_tail1 q ln else py_tail3 q ln) as [k|] eqn:D.
  - cbn. assert (k <= length ln)%nat.
    { destruct single; [eapply c_literal_tail_le in D; [exact D|reflexivity]|eapply py_tail3_le in D; [exact D|reflexivity]]. }
    lia.
  - destruct (single && _); [exact I|].
    specialize (IH q single (p + length ln)%nat (skipn (length ln) t)).
    rewrite skipn_length in IH. specialize (IH ltac:(lia)).
    destruct (py_tail_lines n q single _ _) as [k|e|]; cbn in *; try exact IH. lia.
Qed.
Lemma py_head_ok ln h : py_head ln = Some h ->
  match h with PHTriple _ k => (0 < k <= length ln)%nat | PHSingle _ k _ => (0 < k <= length ln)%nat end.
Proof.
  unfold py_head, py_head_at. set (i := py_prefix_len ln). clearbody i.
  pose proof (skipn_length i ln) as L. destruct (skipn i ln) as [|a [|b [|c r]]] eqn:E; cbn [length] in L; intros H; try discriminate.
  - destruct ((a =? ch_squote) || (a =? ch_dquote)); [|discriminate]. cbn in H. discriminate.
  - destruct ((a =? ch_squote) || (a =? ch_dquote)); [|discriminate]. cbn [skipn] in H.
    destruct (py_head_tail a [b]) as [kb|] eqn:D; cbn in H; [|discriminate]. injection H as <-.
    eapply py_head_tail_le in D; [|reflexivity]. cbn [length] in D. lia.
  - destruct (_ || _) in H; [injection H as <-; lia|].
    destruct ((a =? ch_squote) || (a =? ch_dquote)); [|discriminate]. cbn [skipn] in H.
    destruct (py_head_tail a (b :: c :: r)) as [kb|] eqn:D; cbn [option_map] in H; [|discriminate]. injection H as <-.
    eapply py_head_tail_le in D; [|reflexivity]. cbn [length] in D. lia.
Qed.
Lemma py_string_len_ok t : okr (py_string_len t) (fun r => match r with Some k => (0 < k <= length t)%nat | None => True end).
Proof.
  unfold py_string_len. set (ln := firstn (getline_len t) t).
  assert (Lf : (length ln <= length t)%nat) by (unfold ln; rewrite firstn_length; lia). clearbody ln.
  destruct (py_head ln) as [h|] eqn:E; [|exact I]. apply py_head_ok in E. destruct h as [q k|q k cont].
  - destruct (py_tail3 q (skipn k ln)) as [k'|] eqn:D.
    + eapply py_tail3_le in D; [|reflexivity]. rewrite skipn_length in D. cbn. lia.
    + pose proof (py_tail_lines_ok (S (length t)) q false (length ln) (skipn (length ln) t)) as P.
      rewrite skipn_length in P. specialize (P ltac:(lia)). destruct (py_tail_lines _ _ _ _ _) as [k'|e|]; cbn in *; try exact P. lia.
  - destruct cont; [|cbn; lia]. cbv zeta.
    pose proof (py_tail_lines_ok (S (length t)) (if has_char ch_squote (firstn k ln) then ch_squote else ch_dquote) true (length ln) (skipn (length ln) t)) as P.
    rewrite skipn_length in P. specialize (P ltac:(lia)). destruct (py_tail_lines _ _ _ _ _) as [k'|e|]; cbn in *; try exact P. lia.
Qed.
Lemma opt_len_le p t : (opt_len p t <= length t)%nat.
Proof. destruct t as [|c r]; cbn; [lia|]. destruct (p c); lia. Qed.
Lemma sign_space_le p t : (sign_space_len p t <= length t)%nat.
Proof.
  unfold sign_space_len. pose proof (opt_len_le is_sign t). pose proof (span_len_le p (skipn (opt_len is_sign t) t)) as K.
  rewrite skipn_length in K. lia.
Qed.
Lemma int_body_le t k : int_body_len t = Some k -> (0 < k <= length t)%nat.
Proof.
  unfold int_body_len. destruct t as [|c r]; [discriminate|]. destruct (c =? 48).
  - set (pref := fun up lo (p : char -> bool) => match r with
          | d :: r' => if (d =? up) || (d =? lo) then match span_len p r' with O => None | k => Some (S (S k)) end else None
          | [] => None end).
    assert (P : forall up lo p k, pref up lo p = Some k -> (1 < k <= S (length r))%nat).
    { intros up lo p k' E. unfold pref in E. destruct r as [|d r']; [discriminate|]. destruct (_ || _); [|discriminate].
      pose proof (span_len_le p r'). destruct (span_len p r'); [discriminate|]. injection E as <-. cbn. lia. }
    change (match pref 88 120 is_hex with
            | Some k => Some (k + opt_len is_l (skipn k (c :: r)))%nat
            | None => match pref 66 98 is_bin with Some k => Some k | None =>
                match pref 79 111 is_oct with Some k => Some k | None => Some (S (span_len is_oct r)) end end end = Some k -> (0 < k <= length (c :: r))%nat).
    clearbody pref. destruct (pref 88 120 is_hex) as [a|] eqn:E1; [|destruct (pref 66 98 is_bin) as [a|] eqn:E2; [|destruct (pref 79 111 is_oct) as [a|] eqn:E3]].
    + intros H. injection H as <-. apply P in E1. pose proof (opt_len_le is_l (skipn a (c :: r))) as O. rewrite skipn_length in O. cbn [length] in *. lia.
    + intros H. injection H as <-. apply P in E2. cbn [length]. lia.
    + intros H. injection H as <-. apply P in E3. cbn [length]. lia.
    + intros H. injection H as <-. pose proof (span_len_le is_oct r). cbn [length]. lia.
  - destruct (is_digit c); [|discriminate]. intros E. injection E as <-. pose proof (span_len_le is_digit r). cbn [length]. lia.
Qed.
Lemma re_INT_le t k : re_INT t = Some k -> (0 < k <= length t)%nat.
Proof.
  unfold re_INT. pose proof (sign_space_le ps_SPACE t) as S1. set (i := sign_space_len ps_SPACE t) in *. clearbody i.
  destruct (int_body_len (skipn i t)) as [a|] eqn:E; [|discriminate]. intros H. injection H as <-.
  apply int_body_le in E. rewrite skipn_length in E. pose proof (opt_len_le is_l (skipn (i + a) t)) as O. rewrite skipn_length in O. lia.
Qed.
Lemma re_FLOAT_le t k : re_FLOAT t = Some k -> (0 < k <= length t)%nat.
Proof.
  unfold re_FLOAT. pose proof (sign_space_le (N.eqb 32) t) as S1. set (i := sign_space_len (N.eqb 32) t) in *. clearbody i.
  pose proof (span_len_le is_digit (skipn i t)) as A. rewrite skipn_length in A.
  destruct (span_len is_digit (skipn i t)) as [|a]; [discriminate|].
  destruct (skipn (S a) (skipn i t)) as [|d r] eqn:E1; [discriminate|]. destruct (d =? 46); [|discriminate].
  assert (Lr : (length r = length t - i - S a - 1)%nat).
  { pose proof (skipn_length (S a) (skipn i t)) as L. rewrite E1, skipn_length in L. cbn [length] in L. lia. }
  assert (L1 : (i + S a < length t)%nat).
  { pose proof (skipn_length (S a) (skipn i t)) as L. rewrite E1, skipn_length in L. cbn [length] in L. lia. }
  pose proof (span_len_le is_digit r) as B. destruct (span_len is_digit r) as [|b]; [discriminate|].
  set (j := (i + S a + 1 + S b)%nat). destruct (skipn j t) as [|e r2] eqn:E2.
  - intros H. injection H as <-. unfold j. lia.
  - destruct (_ || _); [|intros H; injection H as <-; unfold j; lia].
    pose proof (skipn_length j t) as L2. rewrite E2 in L2. cbn [length] in L2.
    pose proof (opt_len_le is_sign r2) as O. pose proof (span_len_le is_digit (skipn (opt_len is_sign r2) r2)) as X. rewrite skipn_length in X.
    destruct (span_len is_digit (skipn (opt_len is_sign r2) r2)) as [|x]; intros H; injection H as <-; lia.
Qed.
Lemma find_close_le t : forall k, find_close_remark t = Some k -> (k + 2 <= length t)%nat.
Proof.
  induction t as [|c r IH]; intros k E; [discriminate|]. cbn [find_close_remark] in E.
  destruct (startswith (lit "*/") (c :: r)) eqn:S2.
  - injection E as <-. apply startswith_length in S2. cbn in *. lia.
  - destruct (find_close_remark r) as [k'|]; cbn in E; [|discriminate]. injection E as <-. specialize (IH k' eq_refl). cbn. lia.
Qed.
Lemma ps_remark_python_at i : (i <= len)%nat -> ps_remark_python (at_ i) = (at_ i, None) \/
  exists j, (i < j <= len)%nat /\ ps_remark_python (at_ i) = (at_ j, Some (piece i j)).
Proof.
  intros H. unfold ps_remark_python. destruct (sis ch_hash (at_ i)) eqn:E; [right|left; reflexivity].
  apply at_sis in E. cbv zeta. rewrite at_from, at_to.
  pose proof (span_len_le (fun c => negb (ps_EOL c)) (skipn 1 (s_txt (at_ i)))) as L. rewrite skipn_length, at_len in L.
  set (n := span_len _ _) in *. clearbody n. exists (i + (1 + n))%nat. split; [lia|reflexivity].
Qed.

(** whether the outcome [Fuel] is acceptable *)
Variable endless : Prop.
Variable registry : yst -> text -> text -> Prop.
Variable Inv : yst -> Prop.
Variable ext : yst -> yst -> Prop.
Hypothesis ext_refl : forall s, ext s s.
Hypothesis ext_trans : forall a b c, ext a b -> ext b c -> ext a c.
Hypothesis registry_ext : forall s s' f t, ext s s' -> registry s f t -> registry s' f t.

Definition good (s : yst) (x : node) : Prop := well_located (registry s) x.
Definition loc (s : yst) (a : source) : Prop := located (registry s) a.

Lemma loc_ext s s' a : ext s s' -> loc s a -> loc s' a.
Proof.
  unfold loc, located. destruct (s_file a); [|trivial]. intros E (P & t' & x & y & R & L). split; [exact P|].
  exists t', x, y. split; [eapply registry_ext; eassumption|exact L].
Qed.
Lemma good_ext s s' x : ext s s' -> good s x -> good s' x.
Proof.
  intros E [F P]. split; [intros a Fa; eapply loc_ext; [exact E|apply F, Fa]|].
  intros f p cs Hp. specialize (P f p cs Hp). unfold pinned in *. destruct f; [|trivial].
  destruct P as (Z0 & t' & c & R & L). split; [exact Z0|]. exists t', c. split; [eapply registry_ext; eassumption|exact L].
Qed.
Lemma goods_ext s s' l : ext s s' -> Forall (good s) l -> Forall (good s') l.
Proof. intros E H. eapply Forall_impl; [|exact H]. intros x. apply good_ext, E. Qed.
Lemma locs_ext s s' l : ext s s' -> Forall (loc s) l -> Forall (loc s') l.
Proof. intros E H. eapply Forall_impl; [|exact H]. intros x. apply loc_ext, E. Qed.

Lemma loc_piece s i j : registry s f0 t0 -> (i <= len)%nat -> loc s (piece i j).
Proof.
  intros R H. unfold loc, located. cbn. split; [lia|].
  exists t0, (firstn i t0), (skipn (j - i) (skipn i t0)). split; [exact R|]. split.
  - rewrite firstn_skipn, firstn_skipn. reflexivity.
  - rewrite firstn_length. lia.
Qed.
Lemma loc_raw s t : loc s (raw t).
Proof. exact I. Qed.

Definition loc_region (s : yst) (r : region) : Prop := match r with RLate => True | RList l => Forall (loc s) l end.
Definition loc_lval (s : yst) (r : lval) : Prop := match r with LAtom a => loc s a | LList l => Forall (loc s) l end.
Ltac gd := let F := fresh in split; [intros ? F; inversion F; subst; clear F|intros ? ? ? F; inversion F; subst; clear F];
  try match goal with H : child _ _ |- _ => inversion H; subst; clear H end.
Ltac gsolve := try (cbv beta iota delta [loc_region loc_lval] in *; match goal with
  | H : good _ ?x, F : fragment ?x _ |- _ => exact (proj1 H _ F)
  | H : good _ ?x, F : pin ?x _ _ _ |- _ => exact (proj2 H _ _ _ F)
  | H : Forall (good _) ?l, I : In ?x ?l, F : fragment ?x _ |- _ => exact (proj1 (proj1 (Forall_forall _ _) H _ I) _ F)
  | H : Forall (good _) ?l, I : In ?x ?l, F : pin ?x _ _ _ |- _ => exact (proj2 (proj1 (Forall_forall _ _) H _ I) _ _ _ F)
  | H : Forall (loc _) ?l, I : In ?x ?l |- _ => exact (proj1 (Forall_forall _ _) H _ I)
  | H : loc _ ?x |- located _ ?x => exact H
  end).

Definition good_bound (s : yst) (b : list source * source * node) : Prop :=
  Forall (loc s) (fst (fst b)) /\ loc s (snd (fst b)) /\ good s (snd b).
Definition good_named (s : yst) (b : source * node) : Prop := loc s (fst b) /\ good s (snd b).

Lemma good_none s : good s NNone. Proof. gd. Qed.
Lemma good_comment s : good s NComment. Proof. gd. Qed.
Lemma good_begin s : good s NImportBegin. Proof. gd. Qed.
Lemma good_end s : good s NImportEnd. Proof. gd. Qed.
Lemma good_int s z : good s (NInt z). Proof. gd. Qed.
Lemma good_float s z : good s (NFloat z). Proof. gd. Qed.
Lemma good_str s a : loc s a -> good s (NStr a). Proof. intros H. gd; gsolve. Qed.
Lemma good_remark s a : loc s a -> good s (NRemark a). Proof. intros H. gd; gsolve. Qed.
Lemma good_source s a : loc s a -> good s (NSource a). Proof. intros H. gd; gsolve. Qed.
Lemma good_plain s a i b : loc s a -> good s (NPlain a i b). Proof. intros H. gd; gsolve. Qed.
Lemma good_var s r a : loc_region s r -> loc s a -> good s (NVar r a).
Proof. intros L H. gd; gsolve. Qed.
Lemma good_list s l : Forall (good s) l -> good s (NList l).
Proof. intros H. gd; gsolve. Qed.
Lemma good_text s l p q : Forall (good s) l -> good s (NText l p q).
Proof. intros H. gd; gsolve. Qed.
Lemma good_embed s x : good s x -> good s (NEmbed x).
Proof. intros H. gd; gsolve. Qed.
Lemma good_eval s x d c : good s x -> good s (NEval x d c).
Proof. intros H. gd; gsolve. Qed.
Lemma good_infix s x f p : good s x -> pinned (registry s) f p [36; 123] -> good s (NInfix x f p).
Proof. intros H P. gd; gsolve. exact P. Qed.
Lemma good_set s l x : loc_lval s l -> good s x -> good s (NSet l x).
Proof. intros L H. gd; gsolve. Qed.
Lemma good_let s l x y : loc_lval s l -> good s x -> good s y -> good s (NLet l x y).
Proof. intros L H H'. gd; gsolve. Qed.
Lemma good_macro s n ps b : loc s n -> Forall (loc s) ps -> good s (NMacro n ps b).
Proof. intros L H. gd; gsolve. Qed.
Lemma good_emit s r a x : loc_region s r -> loc s a -> good s x -> good s (NEmit r a x).
Proof. intros L H H'. gd; gsolve. Qed.
Lemma good_lambdav s r a x : loc_region s r -> loc s a -> good s x -> good s (NLambdaV r a x).
Proof. intros L H H'. gd; gsolve. Qed.
Lemma good_cond s x y z : good s x -> good s y -> good s z -> good s (NCond x y z).
Proof. intros L H H'. gd; gsolve. Qed.
Lemma good_lambda s b x : Forall (good_bound s) b -> good s x -> good s (NLambda b x).
Proof.
  intros H G. rewrite Forall_forall in H. gd; gsolve;
    match goal with I : In _ b |- _ => destruct (H _ I) as (A & B & C); cbn in A, B, C end; gsolve.
Qed.
Lemma good_apply s fn args named f p : good s fn -> Forall (good s) args -> Forall (good_named s) named ->
  pinned (registry s) f p [36] -> good s (NApply fn args named f p).
Proof.
  intros H G N P. rewrite (Forall_forall (good_named s)) in N. gd; gsolve; try exact P;
    match goal with I : In _ named |- _ => destruct (N _ I) as (A & B); cbn in A, B end; gsolve.
Qed.
Lemma pin_at s i c cs : registry s f0 t0 -> sis c (at_ i) = true -> In c cs -> pinned (registry s) (Some f0) (Z.of_nat i) cs.
Proof.
  intros R E I0. unfold pinned. split; [lia|]. exists t0, c. split; [exact R|]. split; [|exact I0].
  rewrite Nat2Z.id. unfold sis, at_ in E. cbn in E. destruct (skipn i t0) as [|c1 l1] eqn:D; [discriminate|].
  apply N.eqb_eq in E. subst c1. eapply skipn_nth, D.
Qed.
Lemma named_ext s s' l : ext s s' -> Forall (good_named s) l -> Forall (good_named s') l.
Proof. intros E H. eapply Forall_impl; [|exact H]. intros x [A B]. split; [eapply loc_ext|eapply good_ext]; eassumption. Qed.
Lemma bounds_ext s s' l : ext s s' -> Forall (good_bound s) l -> Forall (good_bound s') l.
Proof.
  intros E H. eapply Forall_impl; [|exact H]. intros x (A & B & C).
  split; [eapply locs_ext|split; [eapply loc_ext|eapply good_ext]]; eassumption.
Qed.
Lemma region_ext s s' r : ext s s' -> loc_region s r -> loc_region s' r.
Proof. intros E. destruct r; [trivial|]. apply locs_ext, E. Qed.
Lemma lval_ext s s' r : ext s s' -> loc_lval s r -> loc_lval s' r.
Proof. intros E. destruct r; [apply loc_ext, E|]. apply locs_ext, E. Qed.

(** ** Triples *)
Definition okm {A} (m : M A) (s : yst) (Q : A -> yst -> Prop) : Prop :=
  match m s with
  | Ok (a, s') => Inv s' /\ ext s s' /\ Q a s'
  | Err _ => True
  | Fuel => endless
  end.
Lemma okm_ret {A} (a : A) s (Q : A -> yst -> Prop) : Inv s -> Q a s -> okm (ret a) s Q.
Proof. intros I0 H. split; [exact I0|]. split; [apply ext_refl|exact H]. Qed.
Lemma okm_bind {A B} (m : M A) (k : A -> M B) s (Q : A -> yst -> Prop) (R : B -> yst -> Prop) :
  okm m s Q -> (forall a s', Inv s' -> ext s s' -> Q a s' -> okm (k a) s' R) -> okm (bind m k) s R.
Proof.
  unfold okm, bind. destruct (m s) as [[a s']|e|]; intros H K; try exact H.
  destruct H as (I0 & E & H). specialize (K a s' I0 E H). destruct (k a s') as [[b s2]|e|]; try exact K.
  destruct K as (I2 & E2 & K). split; [exact I2|]. split; [eapply ext_trans; eassumption|exact K].
Qed.
Lemma okm_weak {A} (m : M A) s (Q R : A -> yst -> Prop) :
  okm m s Q -> (forall a s', Inv s' -> ext s s' -> Q a s' -> R a s') -> okm m s R.
Proof.
  unfold okm. destruct (m s) as [[a s']|e|]; intros H K; try exact H. destruct H as (I0 & E & H). auto.
Qed.
Lemma okm_lift {A} (r : res A) s (Q : A -> Prop) : Inv s -> okr r Q -> okm (lift r) s (fun a _ => Q a).
Proof. intros I0. destruct r as [a|e|]; cbn; intros H; [|exact H|contradiction]. unfold okm. cbn. auto. Qed.
Lemma okm_fail {A} m s (Q : A -> yst -> Prop) : okm (fail m) s Q.
Proof. exact I. Qed.
Lemma okm_throw {A} e s (Q : A -> yst -> Prop) : okm (throw e) s Q.
Proof. exact I. Qed.

(** ** Results of the rules *)
Definition moved {A} (P : A -> Prop) (i : nat) (r : source * option A) : Prop :=
  match snd r with
  | Some x => exists j, (i < j <= len)%nat /\ fst r = at_ j /\ P x
  | None => fst r = at_ i
  end.

Section Reg.
Hypothesis reg0 : forall s, Inv s -> registry s f0 t0.

(** *** Lexical rules *)
Section Lexical.
Variable s : yst.
Hypothesis R0 : registry s f0 t0.

Lemma pg_leg_good g j : pg_ok g j -> good s (pg_leg g).
Proof. intros (i0 & E & H & _). apply good_plain. rewrite E, at_to. apply loc_piece; assumption. Qed.
Lemma ps_comment_ok i : (i <= len)%nat -> okr (ps_comment (at_ i)) (moved (good s) i).
Proof.
  intros H. unfold ps_comment. destruct (sstarts ps_COMMENT (at_ i)) eqn:E; [|reflexivity].
  apply at_starts in E. cbn in E. cbv zeta. rewrite at_from. destruct (sis ch_close (at_ (i + 3))) eqn:C.
  - apply at_sis in C. rewrite at_from. cbn. exists (i + 3 + 1)%nat. split; [lia|]. split; [reflexivity|apply good_comment].
  - pose proof (plain_body_good (i + 3) ltac:(lia)) as P. destruct (plain_body (at_ (i + 3))) as [[r g]|e|]; cbn in *; try exact P.
    destruct P as (j' & J & A & _). exists (S j'). split; [lia|]. split; [exact A|apply good_comment].
Qed.
Lemma ps_backquote_ok i : (i <= len)%nat -> okr (ps_backquote (at_ i)) (moved (fun x => good s x /\ exists q, x = NStr q) i).
Proof.
  intros H. unfold ps_backquote.
  assert (K : exists p, (if sstarts ps_BQUOTE (at_ i) then 2%nat else if sstarts ps_QUOTE (at_ i) then 7%nat else O) = p /\
     (p = O \/ (i + p <= len)%nat)).
  { destruct (sstarts ps_BQUOTE (at_ i)) eqn:E1; [apply at_starts in E1; cbn in E1; eexists; split; [reflexivity|right; lia]|].
    destruct (sstarts ps_QUOTE (at_ i)) eqn:E2; [apply at_starts in E2; cbn in E2; eexists; split; [reflexivity|right; lia]|].
    eexists; split; [reflexivity|left; reflexivity]. }
  destruct K as (p & -> & K). destruct p as [|p]; [reflexivity|]. destruct K as [K|K]; [discriminate|]. cbv zeta.
  rewrite at_from. destruct (sis ch_close (at_ (i + S p))) eqn:C.
  - apply at_sis in C. rewrite at_from. cbn. exists (i + S p + 1)%nat. split; [lia|]. split; [reflexivity|].
    split; [apply good_str, loc_raw|eexists; reflexivity].
  - pose proof (plain_body_good (i + S p) K) as P. destruct (plain_body (at_ (i + S p))) as [[r g]|e|]; cbn in *; try exact P.
    destruct P as (j' & J & A & B & C'). exists (S j'). split; [lia|]. split; [exact A|].
    split; [|eexists; reflexivity]. apply good_str. rewrite C', at_to. apply loc_piece; [exact R0|lia].
Qed.
Definition is_quote (x : node) : Prop := good s x /\ exists q, x = NStr q.
Lemma ps_string_python_ok i : (i <= len)%nat -> okr (ps_string_python (at_ i)) (moved is_quote i).
Proof.
  intros H. unfold ps_string_python. pose proof (py_string_len_ok (s_txt (at_ i))) as P.
  destruct (py_string_len (s_txt (at_ i))) as [[k|]|e|]; cbn [okr] in *; try exact P; [|reflexivity].
  rewrite at_len in P. rewrite at_from, at_to. exists (i + k)%nat. split; [lia|]. split; [reflexivity|].
  split; [apply good_str, loc_piece; [exact R0|lia]|eexists; reflexivity].
Qed.
Lemma ps_quote_ok py i : (i <= len)%nat -> okr (ps_quote py (at_ i)) (moved is_quote i).
Proof.
  intros H. unfold ps_quote. destruct py.
  - pose proof (ps_string_python_ok i H) as P. destruct (ps_string_python (at_ i)) as [[r [x|]]|e|]; cbn [okr] in *; try exact P.
    unfold moved in P. cbn in P. subst r. apply ps_backquote_ok, H.
  - destruct (c_literal ch_dquote (s_txt (at_ i))) as [k|] eqn:E1; [|destruct (c_literal ch_squote (s_txt (at_ i))) as [k|] eqn:E2].
    + apply c_literal_le in E1. rewrite at_len in E1. rewrite at_from. exists (i + k)%nat. split; [lia|]. split; [reflexivity|].
      split; [apply good_str, loc_raw|eexists; reflexivity].
    + apply c_literal_le in E2. rewrite at_len in E2. rewrite at_from. exists (i + k)%nat. split; [lia|]. split; [reflexivity|].
      split; [apply good_str, loc_raw|eexists; reflexivity].
    + apply ps_backquote_ok, H.
Qed.
Lemma ps_number_ok i : (i <= len)%nat -> okr (ps_number (at_ i)) (moved (good s) i).
Proof.
  intros H. unfold ps_number. destruct (re_FLOAT (s_txt (at_ i))) as [k|] eqn:E1.
  - apply re_FLOAT_le in E1. rewrite at_len in E1. destruct (py_float_ok _); [|exact I]. cbn [okr]. rewrite at_from.
    exists (i + k)%nat. split; [lia|]. split; [reflexivity|apply good_float].
  - destruct (re_INT (s_txt (at_ i))) as [k|] eqn:E2; [|reflexivity]. apply re_INT_le in E2. rewrite at_len in E2.
    cbv zeta. destruct (py_int0 _); [|exact I]. cbn [okr]. rewrite at_from.
    exists (i + k)%nat. split; [lia|]. split; [reflexivity|apply good_int].
Qed.
Lemma ps_remark_c_ok i : (i <= len)%nat -> okr (ps_remark_c (at_ i)) (moved (good s) i).
Proof.
  intros H. unfold ps_remark_c. destruct (sstarts (lit "//") (at_ i)) eqn:E1; [|destruct (sstarts (lit "/*") (at_ i)) eqn:E2; [|reflexivity]].
  - apply at_starts in E1. cbn [length lit] in E1. cbn in E1. cbv zeta. rewrite at_from, at_to. cbn [okr].
    pose proof (span_len_le (fun c => negb (ps_EOL c)) (skipn 2 (s_txt (at_ i)))) as L. rewrite skipn_length, at_len in L.
    set (n := span_len _ _) in *. clearbody n. exists (i + (2 + n))%nat. split; [lia|]. split; [reflexivity|apply good_remark, loc_piece; [exact R0|lia]].
  - apply at_starts in E2. cbn in E2.
    destruct (find_close_remark (skipn 2 (s_txt (at_ i)))) as [k|] eqn:F; [|exact I]. apply find_close_le in F.
    rewrite skipn_length, at_len in F. cbv zeta. cbn [okr]. rewrite at_from, at_to.
    exists (i + (2 + k + 2))%nat. split; [lia|]. split; [reflexivity|apply good_remark, loc_piece; [exact R0|lia]].
Qed.
Definition good_variable (v : region * source) : Prop := loc_region s (fst v) /\ loc s (snd v).
Lemma variable_loop_ok n : forall reg leg i, (i <= len)%nat -> (len - i < n)%nat -> Forall (loc s) reg -> loc s leg ->
  okr (variable_loop n reg leg (at_ i)) (fun r => exists j v, (i <= j <= len)%nat /\ r = (at_ j, Some v) /\ good_variable v).
Proof.
  induction n as [|n IH]; intros reg leg i H L Fr Fl; [lia|]. cbn [variable_loop].
  destruct (sstarts (lit "::") (at_ i)) eqn:E.
  - apply at_starts in E. cbn in E. rewrite at_from. destruct (atom_at (i + 2) ltac:(lia)) as [->|(j & J & ->)]; [exact I|].
    specialize (IH (reg ++ [leg]) (piece (i + 2) j) j ltac:(lia) ltac:(lia)).
    assert (F2 : Forall (loc s) (reg ++ [leg])) by (apply Forall_app; split; [exact Fr|constructor; [exact Fl|constructor]]).
    specialize (IH F2 (loc_piece s (i + 2) j R0 ltac:(lia))).
    destruct (variable_loop n _ _ _) as [r|e|]; cbn [okr] in *; try exact IH. destruct IH as (j2 & v & J2 & Er & G). exists j2, v. split; [lia|auto].
  - cbn [okr]. exists i, (RList reg, leg). split; [lia|]. split; [reflexivity|split; assumption].
Qed.
Lemma ps_variable_ok i : (i <= len)%nat -> okr (ps_variable (at_ i)) (moved good_variable i).
Proof.
  intros H. unfold ps_variable. destruct (sis ch_amp (at_ i)) eqn:E.
  - apply at_sis in E. rewrite at_from. destruct (atom_at (i + 1) ltac:(lia)) as [->|(j & J & ->)]; [exact I|]. cbn [okr].
    exists j. split; [lia|]. split; [reflexivity|]. split; [exact I|apply loc_piece; [exact R0|lia]].
  - destruct (atom_at i H) as [->|(j & J & ->)]; [reflexivity|]. rewrite at_len.
    pose proof (variable_loop_ok (S (len - j)) [] (piece i j) j ltac:(lia) ltac:(lia) (Forall_nil _) (loc_piece s _ _ R0 H)) as P.
    destruct (variable_loop _ _ _ _) as [r|e|]; cbn [okr] in *; try exact P. destruct P as (j2 & v & J2 & -> & G).
    exists j2. cbn. split; [lia|auto].
Qed.
Lemma macro_pars_good n : forall acc i, (i <= len)%nat -> (len - i < n)%nat -> Forall (loc s) acc ->
  okr (macro_pars n acc (at_ i)) (fun r => exists j, (i <= j <= len)%nat /\ fst r = at_ j /\ Forall (loc s) (snd r)).
Proof.
  induction n as [|n IH]; intros acc i H L F; [lia|]. cbn [macro_pars]. destruct (sis ch_close (at_ i)) eqn:E.
  - apply at_sis in E. cbn [okr]. rewrite at_from. exists (i + 1)%nat. split; [lia|auto].
  - destruct (atom_at i H) as [->|(j & J & ->)]; [exact I|]. destruct (gap_at j ltac:(lia)) as (j2 & J2 & ->).
    specialize (IH (acc ++ [piece i j]) j2 ltac:(lia) ltac:(lia)).
    assert (F2 : Forall (loc s) (acc ++ [piece i j])) by (apply Forall_app; split; [exact F|constructor; [apply loc_piece; assumption|constructor]]).
    specialize (IH F2). destruct (macro_pars n _ _) as [r|e|]; cbn [okr] in *; try exact IH.
    destruct IH as (j3 & J3 & X). exists j3. split; [lia|exact X].
Qed.
Lemma ps_macro_good i : (i <= len)%nat -> okr (ps_macro (at_ i)) (moved (good s) i).
Proof.
  intros H. unfold ps_macro. destruct (sstarts ps_MACRO (at_ i)) eqn:E; cbn [negb]; [|reflexivity].
  apply at_starts in E. cbn in E. cbv zeta. rewrite at_from. destruct (gap_at (i + 7) ltac:(lia)) as (j & J & ->).
  destruct (atom_at j ltac:(lia)) as [->|(j2 & J2 & ->)]; [exact I|]. destruct (gap_at j2 ltac:(lia)) as (j3 & J3 & ->).
  destruct (sis ch_open (at_ j3)) eqn:E2; cbn [negb]; [|exact I]. apply at_sis in E2. rewrite at_from, at_len.
  destruct (gap_at (j3 + 1) ltac:(lia)) as (j4 & J4 & ->).
  pose proof (macro_pars_good (S (len - j3)) [] j4 ltac:(lia) ltac:(lia) (Forall_nil _)) as P.
  destruct (macro_pars _ _ _) as [[r ps]|e|]; cbn [okr] in P; try exact P. destruct P as (j5 & J5 & P & Fp). cbn in P, Fp. subst r.
  assert (Gn : loc s (piece j j2)) by (apply loc_piece; [exact R0|lia]).
  destruct (sis ch_close (at_ j5)) eqn:E3.
  - apply at_sis in E3. cbn [okr]. rewrite at_from. exists (j5 + 1)%nat. cbn. split; [lia|]. split; [reflexivity|apply good_macro; assumption].
  - pose proof (plain_body_good j5 ltac:(lia)) as P. destruct (plain_body (at_ j5)) as [[r g]|e|]; cbn [okr] in *; try exact P.
    destruct P as (j' & J' & A & _). cbn in A. exists (S j'). cbn. split; [lia|]. split; [exact A|apply good_macro; assumption].
Qed.
Lemma binding_names_ok n : forall acc i, (i <= len)%nat -> (len - i < n)%nat -> Forall (loc s) acc ->
  okr (binding_names n acc (at_ i)) (fun r => exists j, (i < j <= len)%nat /\ fst r = at_ j /\ Forall (loc s) (snd r)).
Proof.
  induction n as [|n IH]; intros acc i H L F; [lia|]. cbn [binding_names].
  destruct (atom_at i H) as [->|(j & J & ->)]; [exact I|]. destruct (gap_at j ltac:(lia)) as (j2 & J2 & ->).
  assert (F2 : Forall (loc s) (acc ++ [piece i j])) by (apply Forall_app; split; [exact F|constructor; [apply loc_piece; assumption|constructor]]).
  cbv zeta. destruct (sis ch_close (at_ j2)) eqn:E.
  - apply at_sis in E. cbn [okr]. rewrite at_from. exists (j2 + 1)%nat. split; [lia|auto].
  - specialize (IH (acc ++ [piece i j]) j2 ltac:(lia) ltac:(lia) F2). destruct (binding_names n _ _) as [r|e|]; cbn [okr] in *; try exact IH.
    destruct IH as (j3 & J3 & X). exists j3. split; [lia|exact X].
Qed.
End Lexical.

(** *** Rules with recursion *)
Definition tg_ok (s : yst) (g : tgen) (i : nat) : Prop :=
  tg_sou g = at_ i /\ (i <= len)%nat /\ Forall (good s) (tg_ast g) /\
  (tg_plain g = None \/ exists pg j, tg_plain g = Some pg /\ pg_ok pg j /\ (j <= i)%nat /\ tg_ret g = skipn j t0).
Lemma tg_ok_ext s s' g i : ext s s' -> tg_ok s g i -> tg_ok s' g i.
Proof. intros E (A & B & C & D). split; [exact A|]. split; [exact B|]. split; [eapply goods_ext; eassumption|exact D]. Qed.
Lemma tg_start s i : (i <= len)%nat -> tg_ok s (text_start (at_ i)) i.
Proof. intros H. split; [reflexivity|]. split; [exact H|]. split; [constructor|left; reflexivity]. Qed.

Definition node_ok (i : nat) (r : source * option node) (s : yst) : Prop := moved (good s) i r.
Definition next_ok (g : tgen) (i : nat) (g' : tgen) (s : yst) : Prop :=
  exists j, tg_ok s g' j /\ tg_started g' = true /\ (if tg_started g then (i < j)%nat else (i <= j)%nat).

Section Rec.
Variable cx : pctx.
Variable imp : text -> M (list node).
Variable k : self.
Variable n : nat.
Hypothesis KF : forall i s, (i <= len)%nat -> (len - i < n)%nat -> Inv s -> okm (k_form k (at_ i)) s (node_ok i).
Hypothesis KN : forall g i s, tg_ok s g i -> (len - i < n)%nat -> Inv s -> okm (k_next k g) s (next_ok g i).

Lemma drive_ok stop m : forall g i s, tg_ok s g i -> (len - i < n)%nat ->
  (len - i < if tg_started g then m else pred m)%nat -> Inv s ->
  okm (drive m k stop g) s (fun r s' => exists j, (i <= j)%nat /\ tg_ok s' (snd r) j /\ stop (snd r) = Some (fst r)).
Proof.
  induction m as [|m IH]; intros g i s G Ln Lm Is; [destruct (tg_started g); lia|]. cbn [drive].
  eapply okm_bind; [apply KN; eassumption|]. intros g' s' Is' E (j & G' & St & J).
  assert (Hj : (j <= len)%nat) by apply G'.
  destruct (stop g') as [rest|] eqn:Es.
  - apply okm_ret; [exact Is'|]. exists j. cbn. split; [destruct (tg_started g); lia|auto].
  - eapply okm_weak; [apply (IH g' j s' G'); [destruct (tg_started g); lia| |exact Is']|].
    + rewrite St. destruct (tg_started g); cbn in Lm; lia.
    + cbn. intros r s2 _ _ (j2 & J2 & X). exists j2. split; [destruct (tg_started g); lia|exact X].
Qed.
Lemma drive_text_ok stop i s : (i <= len)%nat -> (len - i < n)%nat -> Inv s ->
  okm (drive_text k stop (at_ i)) s (fun r s' => exists j, (i <= j)%nat /\ tg_ok s' (snd r) j /\ stop (snd r) = Some (fst r)).
Proof.
  intros H L Is. unfold drive_text. apply drive_ok; [apply tg_start, H|exact L| |exact Is]. cbn [tg_started text_start pred].
  rewrite at_len. lia.
Qed.
Definition stop_ok (stop : tgen -> option source) : Prop :=
  forall g i rest, tg_sou g = at_ i -> (i <= len)%nat -> stop g = Some rest -> exists j, (i <= j <= len)%nat /\ rest = at_ j.

Lemma open_sq_ok i : (i + open_sq_bracket (at_ i) <= len)%nat \/ open_sq_bracket (at_ i) = O.
Proof.
  unfold open_sq_bracket. destruct (sis ch_sq_open (at_ i)) eqn:E1; [apply at_sis in E1; left; lia|].
  destruct (sstarts (lit "\[") (at_ i)) eqn:E2; [apply at_starts in E2; cbn in E2; left; lia|right; reflexivity].
Qed.
Lemma stop_eol_ok : stop_ok stop_eol.
Proof.
  intros g i rest E H. unfold stop_eol. rewrite E. destruct (eol_at i) as [->|(L & ->)]; [discriminate|].
  cbv zeta. destruct (space_at (i + 1) ltac:(lia)) as (j & J & ->). pose proof (open_sq_ok j) as O.
  destruct (open_sq_bracket (at_ j)) as [|q]; [discriminate|]. destruct O as [O|O]; [|discriminate].
  intros X. injection X as <-. rewrite at_from. exists (j + S q)%nat. split; [lia|reflexivity].
Qed.
Lemma stop_tag_ok : stop_ok stop_tag.
Proof.
  intros g i rest E H. unfold stop_tag. rewrite E. cbv zeta. pose proof (open_sq_ok i) as O.
  destruct (open_sq_bracket (at_ i)) as [|q]; [discriminate|]. destruct O as [O|O]; [|discriminate].
  intros X. assert (K : rest = sfrom (S q) (at_ i)).
  { destruct (sis ch_bslash _); [destruct (ps_atom _) as [? [?|]]; [|discriminate]|]; destruct (sis ch_close _); congruence. }
  rewrite K, at_from. exists (i + S q)%nat. split; [lia|reflexivity].
Qed.
Lemma stop_sq_ok : stop_ok stop_sq.
Proof.
  intros g i rest E H. unfold stop_sq. rewrite E. destruct (sis ch_sq_close (at_ i)) eqn:C; [|discriminate].
  apply at_sis in C. cbn. destruct (Nat.eqb _ _); [|discriminate]. intros X. injection X as <-. rewrite at_from.
  exists (i + 1)%nat. split; [lia|reflexivity].
Qed.
Lemma stop_pth_ok : stop_ok stop_pth.
Proof.
  intros g i rest E H. unfold stop_pth. rewrite E. destruct (sis ch_close (at_ i)) eqn:C; [|discriminate].
  apply at_sis in C. cbn. destruct (Nat.eqb _ _); [|discriminate]. intros X. injection X as <-. rewrite at_from.
  exists (i + 1)%nat. split; [lia|reflexivity].
Qed.
Lemma stop_brace_ok : stop_ok stop_brace.
Proof.
  intros g i rest E H. unfold stop_brace. rewrite E. destruct (sis ch_rbrace (at_ i)) eqn:C; [|discriminate].
  apply at_sis in C. intros X. injection X as <-. rewrite at_from. exists (i + 1)%nat. split; [lia|reflexivity].
Qed.
Lemma stop_comma_ok : stop_ok stop_comma.
Proof.
  intros g i rest E H. unfold stop_comma. rewrite E. cbv zeta. destruct (sstarts ps_DUALSEMI (at_ i)) eqn:C.
  - apply at_starts in C. cbn in C. intros X. injection X as <-. rewrite at_from. exists (i + 2)%nat. split; [lia|reflexivity].
  - intros X. assert (K : rest = at_ i).
    { destruct (sstarts ps_DUALCOMMA (at_ i)); [congruence|]. destruct (sis ch_bslash (at_ i)).
      - destruct (ps_atom _) as [? [?|]]; [|discriminate]. destruct (_ && _); congruence.
      - destruct (_ && _); congruence. }
    rewrite K. exists i. split; [lia|reflexivity].
Qed.
Lemma stop_eof_ok : stop_ok stop_eof.
Proof.
  intros g i rest E H. unfold stop_eof. rewrite E. destruct (s_txt (at_ i)); [|discriminate]. intros X. injection X as <-.
  exists i. split; [lia|reflexivity].
Qed.
Lemma tg_leg_good s g i : tg_ok s g i -> good s (tg_leg g).
Proof. intros (_ & _ & F & _). apply good_text, F. Qed.

Lemma run_ok stop i from s : stop_ok stop -> (i < from <= len)%nat -> (len - i <= n)%nat -> Inv s ->
  okm (let* (rest, g) := drive_text k stop (at_ from) in ret (rest, Some (tg_leg g))) s (node_ok i).
Proof.
  intros St H L Is. eapply okm_bind; [apply drive_text_ok; [lia|lia|exact Is]|].
  intros [rest g] s' Is' E (j & J & G & Es). cbn in G, Es. apply okm_ret; [exact Is'|].
  destruct (St g j rest (proj1 G) (proj1 (proj2 G)) Es) as (j' & J' & ->). exists j'. cbn. split; [lia|]. split; [reflexivity|].
  eapply tg_leg_good, G.
Qed.
Lemma ps_code_ok i s : (i <= len)%nat -> (len - i <= n)%nat -> Inv s -> okm (ps_code k (at_ i)) s (node_ok i).
Proof.
  intros H L Is. unfold ps_code. destruct (sis ch_sq_close (at_ i)) eqn:E1.
  { apply at_sis in E1. rewrite at_from. destruct (space_at (i + 1) ltac:(lia)) as (j & J & ->). cbv zeta.
    destruct (eol_at j) as [->|(Lj & ->)]; apply run_ok; auto using stop_tag_ok, stop_eol_ok; lia. }
  destruct (sis ch_sq_open (at_ i)) eqn:E2.
  { apply at_sis in E2. rewrite at_from. apply run_ok; auto using stop_sq_ok; lia. }
  destruct (sstarts ps_CODE (at_ i)) eqn:E3.
  { apply at_starts in E3. cbn in E3. rewrite at_from. apply run_ok; auto using stop_pth_ok; lia. }
  destruct (sstarts ps_DUALCOMMA (at_ i)) eqn:E4.
  { apply at_starts in E4. cbn in E4. rewrite at_from. apply run_ok; auto using stop_comma_ok; lia. }
  apply okm_ret; [exact Is|reflexivity].
Qed.
Lemma starts_sis c p i : sstarts (c :: p) (at_ i) = true -> sis c (at_ i) = true.
Proof. unfold sstarts, sis. cbn. destruct (skipn i t0); cbn; [discriminate|]. intros E. apply andb_prop in E. rewrite N.eqb_sym. apply E. Qed.
Lemma starts_second c d p i : sstarts (c :: d :: p) (at_ i) = true -> sis d (at_ (i + 1)) = true.
Proof.
  unfold sstarts, sis. cbn. rewrite <- (skipn_skipn' 1 i). destruct (skipn i t0) as [|x [|y r]]; cbn; try discriminate; intros E;
  repeat (apply andb_prop in E; destruct E as [?Ea E]); try discriminate. rewrite N.eqb_sym. assumption.
Qed.
Lemma ps_infix_ok i s : (i <= len)%nat -> (len - i <= n)%nat -> Inv s -> okm (ps_infix k (at_ i)) s (node_ok i).
Proof.
  intros H L Is. unfold ps_infix. destruct (sis ch_lbrace (at_ i)) eqn:E1.
  { pose proof E1 as P. apply at_sis in E1. rewrite at_from. eapply okm_bind; [apply drive_text_ok; [lia|lia|exact Is]|].
    intros [rest g] s' Is' E (j & J & G & Es). cbn in G, Es. apply okm_ret; [exact Is'|].
    destruct (stop_brace_ok g j rest (proj1 G) (proj1 (proj2 G)) Es) as (j' & J' & ->). exists j'. cbn. split; [lia|]. split; [reflexivity|].
    apply good_infix; [eapply tg_leg_good, G|]. apply (pin_at s' i ch_lbrace); [apply reg0, Is'|exact P|right; left; reflexivity]. }
  destruct (sstarts ps_INFIX (at_ i)) eqn:E2.
  { pose proof E2 as P. apply (starts_second _ _ (lit "{}")) in P.
    apply at_starts in E2. cbn in E2. rewrite at_from. eapply okm_bind; [apply drive_text_ok; [lia|lia|exact Is]|].
    intros [rest g] s' Is' E (j & J & G & Es). cbn in G, Es. apply okm_ret; [exact Is'|].
    destruct (stop_pth_ok g j rest (proj1 G) (proj1 (proj2 G)) Es) as (j' & J' & ->). exists j'. cbn. split; [lia|]. split; [reflexivity|].
    apply good_infix; [eapply tg_leg_good, G|]. replace (Z.of_nat i + 1)%Z with (Z.of_nat (i + 1)) by lia.
    apply (pin_at s' (i + 1) ch_dollar); [apply reg0, Is'|exact P|left; reflexivity]. }
  apply okm_ret; [exact Is|reflexivity].
Qed.
Lemma loc_here s i j : Inv s -> (i <= len)%nat -> loc s (piece i j).
Proof. intros Is H. apply loc_piece; [apply reg0, Is|exact H]. Qed.

Lemma ps_binding_ok i s : (i <= len)%nat -> (len - i <= pred n)%nat -> (i < len -> 0 < n)%nat -> Inv s ->
  okm (ps_binding k (at_ i)) s (fun r s' => exists j, (i < j <= len)%nat /\ fst r = at_ j /\ loc_lval s' (fst (snd r)) /\ good s' (snd (snd r))).
Proof.
  intros H L Ln Is. unfold ps_binding.
  eapply okm_bind with (Q := fun r s' => exists j, (i < j <= len)%nat /\ fst r = at_ j /\ loc_lval s' (snd r)).
  - destruct (sis ch_open (at_ i)) eqn:E.
    + apply at_sis in E. rewrite at_from. destruct (gap_at (i + 1) ltac:(lia)) as (j & J & ->).
      eapply okm_bind; [apply okm_lift; [exact Is|]; apply (binding_names_ok s (reg0 s Is)); [lia|rewrite at_len; lia|constructor]|].
      intros [r l] s' Is' Ex (j2 & J2 & Er & F). cbn in Er, F. apply okm_ret; [exact Is'|]. exists j2. cbn. split; [lia|]. split; [exact Er|].
      eapply locs_ext; eassumption.
    + destruct (atom_at i H) as [->|(j & J & ->)]; [apply okm_fail|]. apply okm_ret; [exact Is|]. exists j. cbn.
      split; [lia|]. split; [reflexivity|apply loc_here; assumption].
  - intros [r lv] s' Is' Ex (j & J & Er & Fl). cbn in Er, Fl. subst r. cbv zeta. destruct (gap_at j ltac:(lia)) as (j2 & J2 & ->).
    eapply okm_bind; [apply KF; [lia|lia|exact Is']|]. intros [r leg] s2 Is2 Ex2 P. unfold node_ok, moved in P. cbn in P.
    destruct leg as [x|]; [|apply okm_fail]. destruct P as (j3 & J3 & -> & G). apply okm_ret; [exact Is2|]. exists j3. cbn.
    split; [lia|]. split; [reflexivity|]. split; [eapply lval_ext; eassumption|exact G].
Qed.
Lemma skip_tag_at tag i : (i <= len)%nat -> exists j, (i <= j <= len)%nat /\ skip_tag tag (at_ i) = at_ j.
Proof.
  intros H. unfold skip_tag. destruct (sstarts tag (at_ i)) eqn:E; [|exists i; split; [lia|reflexivity]].
  apply at_starts in E. rewrite at_from. destruct (gap_at (i + length tag) ltac:(lia)) as (j & J & ->). exists j. split; [lia|reflexivity].
Qed.
Lemma ps_set_ok i s : (i <= len)%nat -> (len - i <= n)%nat -> Inv s -> okm (ps_set k (at_ i)) s (node_ok i).
Proof.
  intros H L Is. unfold ps_set. destruct (sstarts ps_SET (at_ i)) eqn:E; cbn [negb]; [|apply okm_ret; [exact Is|reflexivity]].
  apply at_starts in E. cbn in E. cbv zeta. rewrite at_from. destruct (gap_at (i + 5) ltac:(lia)) as (j & J & ->).
  eapply okm_bind; [apply ps_binding_ok; [lia|lia|lia|exact Is]|]. intros [r [lv x]] s' Is' Ex (j2 & J2 & Er & Fl & Fx). cbn in Er, Fl, Fx. subst r.
  destruct (gap_at j2 ltac:(lia)) as (j3 & J3 & ->). destruct (skip_tag_at ps_SET_T j3 ltac:(lia)) as (j4 & J4 & ->).
  destruct (sis ch_close (at_ j4)) eqn:C; [|apply okm_fail]. apply at_sis in C. apply okm_ret; [exact Is'|]. rewrite at_from.
  exists (j4 + 1)%nat. cbn. split; [lia|]. split; [reflexivity|apply good_set; assumption].
Qed.
Lemma ps_let_ok i s : (i <= len)%nat -> (len - i <= n)%nat -> Inv s -> okm (ps_let k (at_ i)) s (node_ok i).
Proof.
  intros H L Is. unfold ps_let. destruct (sstarts ps_LET (at_ i)) eqn:E; cbn [negb]; [|apply okm_ret; [exact Is|reflexivity]].
  apply at_starts in E. cbn in E. cbv zeta. rewrite at_from. destruct (gap_at (i + 5) ltac:(lia)) as (j & J & ->).
  eapply okm_bind; [apply ps_binding_ok; [lia|lia|lia|exact Is]|]. intros [r [lv x]] s' Is' Ex (j2 & J2 & Er & Fl & Fx). cbn in Er, Fl, Fx. subst r.
  destruct (gap_at j2 ltac:(lia)) as (j3 & J3 & ->).
  eapply okm_bind; [apply KF; [lia|lia|exact Is']|]. intros [r leg] s2 Is2 Ex2 P. unfold node_ok, moved in P. cbn in P.
  destruct leg as [y|]; [|apply okm_fail]. destruct P as (j4 & J4 & -> & G).
  destruct (gap_at j4 ltac:(lia)) as (j5 & J5 & ->). destruct (skip_tag_at ps_LET_T j5 ltac:(lia)) as (j6 & J6 & ->).
  destruct (sis ch_close (at_ j6)) eqn:C; [|apply okm_fail]. apply at_sis in C. apply okm_ret; [exact Is2|]. rewrite at_from.
  exists (j6 + 1)%nat. cbn. split; [lia|]. split; [reflexivity|]. apply good_let; [eapply lval_ext|eapply good_ext|]; eassumption.
Qed.
Lemma ps_emit_ok i s : (i <= len)%nat -> (len - i <= n)%nat -> Inv s -> okm (ps_emit k (at_ i)) s (node_ok i).
Proof.
  intros H L Is. unfold ps_emit. destruct (sstarts ps_EMIT (at_ i)) eqn:E; cbn [negb]; [|apply okm_ret; [exact Is|reflexivity]].
  apply at_starts in E. cbn in E. cbv zeta. rewrite at_from. destruct (gap_at (i + 6) ltac:(lia)) as (j & J & ->).
  eapply okm_bind; [apply okm_lift; [exact Is|]; apply (ps_variable_ok s (reg0 s Is)); lia|].
  intros [r v] s' Is' Ex P. unfold moved in P. cbn in P. destruct v as [[reg a]|]; [|apply okm_fail].
  destruct P as (j2 & J2 & -> & Gr & Ga). cbn in Gr, Ga. destruct (gap_at j2 ltac:(lia)) as (j3 & J3 & ->).
  eapply okm_bind; [apply KF; [lia|lia|exact Is']|]. intros [r leg] s2 Is2 Ex2 P. unfold node_ok, moved in P. cbn in P.
  assert (K : exists j4 x, (j3 <= j4 <= len)%nat /\ (match leg with Some f => (gap r, f) | None => (r, NNone) end) = (at_ j4, x) /\ good s2 x).
  { destruct leg as [y|].
    - destruct P as (j4 & J4 & -> & G). destruct (gap_at j4 ltac:(lia)) as (j5 & J5 & ->). exists j5, y. split; [lia|auto].
    - subst r. exists j3, NNone. split; [lia|]. split; [reflexivity|apply good_none]. }
  destruct K as (j4 & x & J4 & -> & G). destruct (skip_tag_at ps_EMIT_T j4 ltac:(lia)) as (j5 & J5 & ->).
  destruct (sis ch_close (at_ j5)) eqn:C; [|apply okm_fail]. apply at_sis in C. apply okm_ret; [exact Is2|]. rewrite at_from.
  exists (j5 + 1)%nat. cbn. split; [lia|]. split; [reflexivity|].
  apply good_emit; [eapply region_ext; [|exact Gr]|eapply loc_ext; [|exact Ga]|exact G]; eapply ext_trans; eassumption.
Qed.
Lemma forall_snoc {A} (P : A -> Prop) l x : Forall P l -> P x -> Forall P (l ++ [x]).
Proof. intros A1 A2. apply Forall_app. split; [exact A1|]. constructor; [exact A2|constructor]. Qed.
Lemma app_name_at i : (i <= len)%nat -> forall name look, app_name (at_ i) = Some (name, look) ->
  exists j, (i < j <= len)%nat /\ look = at_ j /\ forall s, Inv s -> loc s name.
Proof.
  intros H name look. unfold app_name. destruct (sis ch_bslash (at_ i)) eqn:E; [|discriminate]. apply at_sis in E. rewrite at_from.
  destruct (atom_at (i + 1) ltac:(lia)) as [->|(j & J & ->)]; [discriminate|]. cbv zeta.
  destruct (gap_at j ltac:(lia)) as (j2 & J2 & ->). destruct (sis ch_dotc (at_ j2)); [discriminate|]. intros X. injection X as <- <-.
  exists j2. split; [lia|]. split; [reflexivity|]. intros s Is. apply loc_here; [exact Is|lia].
Qed.
Lemma star_at i : (i <= len)%nat -> exists j, (i <= j <= len)%nat /\ (if sis ch_star (at_ i) then gap (sfrom 1 (at_ i)) else at_ i) = at_ j.
Proof.
  intros H. destruct (sis ch_star (at_ i)) eqn:E; [|exists i; split; [lia|reflexivity]]. apply at_sis in E. rewrite at_from.
  destruct (gap_at (i + 1) ltac:(lia)) as (j & J & ->). exists j. split; [lia|reflexivity].
Qed.
Lemma good_star s b x : good s x -> good s (if b : bool then NEmbed x else x).
Proof. intros G. destruct b; [apply good_embed, G|exact G]. Qed.
Lemma app_args_ok m : forall fn args named i s, (i <= len)%nat -> (len - i < n)%nat -> (len - i < m)%nat -> Inv s ->
  Forall (good s) args -> Forall (good_named s) named ->
  okm (app_args m k fn args named (at_ i)) s (fun r s' => exists j, (i <= j <= len)%nat /\ fst (fst r) = at_ j /\
    Forall (good s') (snd (fst r)) /\ Forall (good_named s') (snd r)).
Proof.
  induction m as [|m IH]; intros fn args named i s H L Lm Is Fa Fn; [lia|]. cbn [app_args].
  destruct (gap_at i H) as (j & J & ->). cbv zeta. destruct (app_name (at_ j)) as [[name look]|] eqn:E.
  - destruct (app_name_at j ltac:(lia) name look E) as (j2 & J2 & -> & Ln). destruct (match fn with Some f => _ | None => _ end).
    + apply okm_ret; [exact Is|]. exists j2. cbn. split; [lia|auto].
    + destruct (gap_at j2 ltac:(lia)) as (j3 & J3 & ->). eapply okm_bind; [apply KF; [lia|lia|exact Is]|].
      intros [r leg] s2 Is2 Ex2 P. unfold node_ok, moved in P. cbn in P. destruct leg as [y|]; [|apply okm_fail].
      destruct P as (j4 & J4 & -> & G). eapply okm_weak; [apply IH; [lia|lia|lia|exact Is2| |]|].
      * eapply goods_ext; eassumption.
      * apply forall_snoc; [eapply named_ext; eassumption|]. split; [apply Ln, Is2|exact G].
      * cbn. intros r s3 _ _ (j5 & J5 & X). exists j5. split; [lia|exact X].
  - destruct (star_at j ltac:(lia)) as (j2 & J2 & ->). eapply okm_bind; [apply KF; [lia|lia|exact Is]|].
    intros [r leg] s2 Is2 Ex2 P. unfold node_ok, moved in P. cbn in P. destruct leg as [y|].
    + destruct P as (j4 & J4 & -> & G). eapply okm_weak; [apply IH; [lia|lia|lia|exact Is2| |]|].
      * apply forall_snoc; [eapply goods_ext; eassumption|apply good_star, G].
      * eapply named_ext; eassumption.
      * cbn. intros r s3 _ _ (j5 & J5 & X). exists j5. split; [lia|exact X].
    + destruct (sis ch_star (at_ j)); [apply okm_fail|]. apply okm_ret; [exact Is2|]. exists j2. cbn. split; [lia|]. split; [exact P|].
      split; [eapply goods_ext|eapply named_ext]; eassumption.
Qed.
Lemma ps_application_ok i s : (i <= len)%nat -> (len - i <= n)%nat -> Inv s -> okm (ps_application k (at_ i)) s (node_ok i).
Proof.
  intros H L Is. unfold ps_application.
  destruct (sstarts (lit "($") (at_ i)) eqn:E; cbn [negb]; [|apply okm_ret; [exact Is|reflexivity]].
  pose proof (starts_second _ _ [] i E) as Pd. apply at_starts in E. cbn in E.
  destruct (sstarts ps_QUOTE (at_ i)); [apply okm_ret; [exact Is|reflexivity]|].
  destruct (sstarts ps_CODE (at_ i)); [apply ps_code_ok; assumption|].
  destruct (sstarts ps_EMIT (at_ i)); [apply ps_emit_ok; assumption|].
  destruct (sstarts ps_INFIX (at_ i)); [apply ps_infix_ok; assumption|]. cbv zeta. rewrite at_from.
  assert (K : exists j, (i + 2 <= j <= len)%nat /\ (if sis ch_dollar (at_ (i + 2)) then sfrom 1 (at_ (i + 2)) else at_ (i + 2)) = at_ j).
  { destruct (sis ch_dollar (at_ (i + 2))) eqn:D; [apply at_sis in D; rewrite at_from; exists (i + 2 + 1)%nat; split; [lia|reflexivity]|].
    exists (i + 2)%nat. split; [lia|reflexivity]. }
  destruct K as (j & J & ->). destruct (gap_at j ltac:(lia)) as (j2 & J2 & ->).
  eapply okm_bind; [apply KF; [lia|lia|exact Is]|]. intros [r leg] s2 Is2 Ex2 P. unfold node_ok, moved in P. cbn in P.
  destruct leg as [fn|]; [|apply okm_fail]. destruct P as (j3 & J3 & -> & G).
  eapply okm_bind; [apply app_args_ok; [lia|lia|rewrite at_len; lia|exact Is2|constructor|constructor]|].
  intros [[r args] named] s3 Is3 Ex3 (j4 & J4 & Er & Fa & Fn). cbn in Er, Fa, Fn. subst r.
  destruct (gap_at j4 ltac:(lia)) as (j5 & J5 & ->). destruct (sis ch_close (at_ j5)) eqn:C; cbn [negb]; [|apply okm_fail].
  apply at_sis in C. apply okm_ret; [exact Is3|]. rewrite at_from. exists (j5 + 1)%nat. split; [lia|]. split; [reflexivity|].
  assert (Ga : good s3 (NApply fn args named (s_file (at_ j5)) (s_pos (at_ (i + 2)) - 1))).
  { apply good_apply; [eapply good_ext; eassumption|exact Fa|exact Fn|]. cbn [s_file s_pos at_].
    replace (Z.of_nat (i + 2) - 1)%Z with (Z.of_nat (i + 1)) by lia.
    apply (pin_at s3 (i + 1) ch_dollar); [apply reg0, Is3|exact Pd|left; reflexivity]. }
  destruct (sis ch_dollar (at_ (i + 2))); [apply good_eval, Ga|exact Ga].
Qed.
Lemma list_items_ok m : forall acc i s, (i <= len)%nat -> (len - i < n)%nat -> (len - i < m)%nat -> Inv s -> Forall (good s) acc ->
  okm (list_items m k acc (at_ i)) s (fun r s' => exists j, (i <= j <= len)%nat /\ fst r = at_ j /\ Forall (good s') (snd r)).
Proof.
  induction m as [|m IH]; intros acc i s H L Lm Is Fa; [lia|]. cbn [list_items].
  destruct (sis ch_close (at_ i)) eqn:C.
  - apply at_sis in C. rewrite at_from. apply okm_ret; [exact Is|]. exists (i + 1)%nat. cbn. split; [lia|auto].
  - cbv zeta. destruct (star_at i H) as (j2 & J2 & ->). eapply okm_bind; [apply KF; [lia|lia|exact Is]|].
    intros [r leg] s2 Is2 Ex2 P. unfold node_ok, moved in P. cbn in P. destruct leg as [y|]; [|apply okm_fail].
    destruct P as (j4 & J4 & -> & G). destruct (gap_at j4 ltac:(lia)) as (j5 & J5 & ->). eapply okm_weak; [apply IH; [lia|lia|lia|exact Is2|]|].
    + apply forall_snoc; [eapply goods_ext; eassumption|apply good_star, G].
    + cbn. intros r s3 _ _ (j6 & J6 & X). exists j6. split; [lia|exact X].
Qed.
Lemma ps_list_ok i s : (i <= len)%nat -> (len - i <= n)%nat -> Inv s -> okm (ps_list k (at_ i)) s (node_ok i).
Proof.
  intros H L Is. unfold ps_list. destruct (sis ch_open (at_ i)) eqn:E; [|apply okm_ret; [exact Is|reflexivity]].
  apply at_sis in E. rewrite at_from, at_len. destruct (gap_at (i + 1) ltac:(lia)) as (j & J & ->).
  eapply okm_bind; [apply list_items_ok; [lia|lia|lia|exact Is|constructor]|]. intros [r l] s2 Is2 Ex2 (j2 & J2 & Er & F). cbn in Er, F.
  apply okm_ret; [exact Is2|]. exists j2. cbn. split; [lia|]. split; [exact Er|apply good_list, F].
Qed.
Lemma or_else (a b : source -> M (source * option node)) i s :
  okm (a (at_ i)) s (node_ok i) -> (forall s', Inv s' -> okm (b (at_ i)) s' (node_ok i)) ->
  okm (let* (sou, leg) := a (at_ i) in match leg with Some _ => ret (sou, leg) | None => b sou end) s (node_ok i).
Proof.
  intros A B. eapply okm_bind; [exact A|]. intros [r leg] s2 Is2 Ex2 P. unfold node_ok, moved in P. cbn in P. destruct leg as [y|].
  - apply okm_ret; [exact Is2|]. exact P.
  - subst r. apply B, Is2.
Qed.
Lemma ps_l_form_ok i s : (i <= len)%nat -> (len - i <= n)%nat -> Inv s -> okm (ps_l_form k (at_ i)) s (node_ok i).
Proof.
  intros H L Is. unfold ps_l_form.
  apply (or_else _ (fun sou => let* (sou, leg) := ps_infix k sou in match leg with Some _ => ret (sou, leg) | None =>
    let* (sou, leg) := ps_let k sou in match leg with Some _ => ret (sou, leg) | None =>
    let* (sou, leg) := ps_application k sou in match leg with Some _ => ret (sou, leg) | None => ps_list k sou end end end)); [apply ps_code_ok; assumption|].
  intros s1 I1. apply (or_else _ (fun sou => 
    let* (sou, leg) := ps_let k sou in match leg with Some _ => ret (sou, leg) | None =>
    let* (sou, leg) := ps_application k sou in match leg with Some _ => ret (sou, leg) | None => ps_list k sou end end)); [apply ps_infix_ok; assumption|].
  intros s2 I2. apply (or_else _ (fun sou => 
    let* (sou, leg) := ps_application k sou in match leg with Some _ => ret (sou, leg) | None => ps_list k sou end)); [apply ps_let_ok; assumption|].
  intros s3 I3. apply (or_else _ (fun sou => ps_list k sou)); [apply ps_application_ok; assumption|].
  intros s4 I4. apply ps_list_ok; assumption.
Qed.
Lemma lambda_bounds_ok m : forall bound late i s, (i <= len)%nat -> (len - i <= n)%nat -> (len - i < m)%nat -> Inv s ->
  Forall (good_bound s) bound -> Forall (loc s) late ->
  okm (lambda_bounds m k bound late (at_ i)) s (fun r s' => exists j, (i <= j <= len)%nat /\ fst r = at_ j /\ Forall (good_bound s') (snd r)).
Proof.
  induction m as [|m IH]; intros bound late i s H L Lm Is Fb Fl; [lia|]. cbn [lambda_bounds].
  destruct (sis ch_bslash (at_ i)) eqn:C; cbn [negb]; [|apply okm_ret; [exact Is|exists i; cbn; split; [lia|auto]]].
  apply at_sis in C. destruct (sstarts (lit "\...") (at_ i)) eqn:E.
  - apply at_starts in E. cbn in E. destruct late; [|apply okm_fail]. rewrite at_from. destruct (gap_at (i + 4) ltac:(lia)) as (j & J & ->).
    eapply okm_weak; [apply IH; [lia|lia|lia|exact Is| |constructor]|].
    + apply forall_snoc; [exact Fb|]. split; [constructor|]. split; [apply loc_raw|apply good_none].
    + cbn. intros r s3 _ _ (j6 & J6 & X). exists j6. split; [lia|exact X].
  - rewrite at_from. destruct (atom_at (i + 1) ltac:(lia)) as [->|(j & J & ->)]; [apply okm_fail|].
    eapply okm_bind with (Q := fun r s' => exists j2, (j <= j2 <= len)%nat /\ fst r = at_ j2 /\ good s' (snd r)).
    + destruct (sis ch_colon (at_ j)) eqn:Cc; [|apply okm_ret; [exact Is|exists j; cbn; split; [lia|]; split; [reflexivity|apply good_none]]].
      apply at_sis in Cc. rewrite at_from. eapply okm_bind; [apply KF; [lia|lia|exact Is]|].
      intros [r leg] s2 Is2 Ex2 P. unfold node_ok, moved in P. cbn in P. destruct leg as [y|]; [|apply okm_fail].
      destruct P as (j4 & J4 & -> & G). apply okm_ret; [exact Is2|]. exists j4. cbn. split; [lia|auto].
    + intros [r form] s2 Is2 Ex2 (j2 & J2 & Er & G). cbn in Er, G. subst r.
      destruct (sis ch_dotc (at_ j2)) eqn:D; cbn [negb]; [|apply okm_fail]. apply at_sis in D.
      destruct (sstarts (lit "..") (at_ j2)) eqn:Dd.
      * apply at_starts in Dd. cbn in Dd. rewrite at_from. destruct (gap_at (j2 + 2) ltac:(lia)) as (j3 & J3 & ->).
        eapply okm_weak; [apply IH; [lia|lia|lia|exact Is2| |]|].
        -- eapply bounds_ext; eassumption.
        -- apply forall_snoc; [eapply locs_ext; eassumption|apply loc_here; [exact Is2|lia]].
        -- cbn. intros r s3 _ _ (j6 & J6 & X). exists j6. split; [lia|exact X].
      * rewrite at_from. destruct (gap_at (j2 + 1) ltac:(lia)) as (j3 & J3 & ->).
        eapply okm_weak; [apply IH; [lia|lia|lia|exact Is2| |constructor]|].
        -- apply forall_snoc; [eapply bounds_ext; eassumption|]. split; [cbn; eapply locs_ext; eassumption|].
           split; [apply loc_here; [exact Is2|lia]|exact G].
        -- cbn. intros r s3 _ _ (j6 & J6 & X). exists j6. split; [lia|exact X].
Qed.
Lemma ps_lambda_ok i s : (i <= len)%nat -> (len - i <= n)%nat -> Inv s -> okm (ps_lambda k (at_ i)) s (node_ok i).
Proof.
  intros H L Is. unfold ps_lambda. destruct (sis ch_bslash (at_ i)) eqn:C; cbn [negb]; [|apply okm_ret; [exact Is|reflexivity]].
  apply at_sis in C. destruct (sstarts (lit "\(") (at_ i)) eqn:E.
  - apply at_starts in E. cbn in E. rewrite at_from. destruct (gap_at (i + 2) ltac:(lia)) as (j & J & ->).
    eapply okm_bind; [apply okm_lift; [exact Is|]; apply (ps_variable_ok s (reg0 s Is)); lia|].
    intros [r v] s' Is' Ex P. unfold moved in P. cbn in P. destruct v as [[reg a]|]; [|apply okm_fail].
    destruct P as (j2 & J2 & -> & Gr & Ga). cbn in Gr, Ga. cbv zeta. destruct (gap_at j2 ltac:(lia)) as (j3 & J3 & ->).
    destruct (sstarts (lit ").") (at_ j3)) eqn:D; cbn [negb]; [|apply okm_fail]. apply at_starts in D. cbn in D. rewrite at_from.
    destruct (gap_at (j3 + 2) ltac:(lia)) as (j4 & J4 & ->).
    eapply okm_bind; [apply ps_l_form_ok; [lia|lia|exact Is']|].
    intros [r leg] s2 Is2 Ex2 P. unfold node_ok, moved in P. cbn in P. destruct leg as [y|]; [|apply okm_fail].
    destruct P as (j5 & J5 & -> & G). apply okm_ret; [exact Is2|]. exists j5. cbn. split; [lia|]. split; [reflexivity|].
    apply good_lambdav; [eapply region_ext; [|exact Gr]|eapply loc_ext; [|exact Ga]|exact G]; eapply ext_trans; eassumption.
  - rewrite at_len. eapply okm_bind with (Q := fun r s' => exists j, (i <= j <= len)%nat /\ fst r = at_ j /\ Forall (good_bound s') (snd r)).
    + apply lambda_bounds_ok; [lia|lia|lia|exact Is|constructor|constructor].
    + intros [r bound] s' Is' Ex (j & J & Er & F). cbn in Er, F. subst r.
      eapply okm_bind; [apply ps_l_form_ok; [lia|lia|exact Is']|].
      intros [r leg] s2 Is2 Ex2 P. unfold node_ok, moved in P. cbn in P. destruct leg as [y|]; [|apply okm_fail].
      destruct P as (j5 & J5 & -> & G). apply okm_ret; [exact Is2|]. exists j5. cbn. split; [lia|]. split; [reflexivity|].
      apply good_lambda; [eapply bounds_ext; eassumption|exact G].
Qed.
Lemma ps_value_ok i s : registry s f0 t0 -> (i <= len)%nat -> okr (ps_value cx (at_ i)) (moved (good s) i).
Proof.
  intros R H. unfold ps_value. pose proof (ps_quote_ok s R (c_python cx) i H) as P.
  destruct (ps_quote (c_python cx) (at_ i)) as [[r [x|]]|e|]; cbn [okr] in *; try exact P.
  - unfold moved in *. cbn in *. destruct P as (j & J & E & G & _). exists j. auto.
  - unfold moved in P. cbn in P. subst r. apply ps_number_ok, H.
Qed.
Lemma ps_former_ok i s : (i <= len)%nat -> (len - i <= n)%nat -> Inv s -> okm (ps_former cx k (at_ i)) s (node_ok i).
Proof.
  intros H L Is. unfold ps_former. eapply okm_bind; [apply okm_lift; [exact Is|apply ps_value_ok; [apply reg0, Is|exact H]]|].
  intros [r leg] s1 I1 E1 P. unfold moved in P. cbn in P. destruct leg as [y|].
  { destruct P as (j & J & -> & G). apply okm_ret; [exact I1|]. exists j. cbn. split; [lia|]. split; [reflexivity|eapply good_ext; eassumption]. }
  subst r. eapply okm_bind; [apply okm_lift; [exact I1|apply (ps_variable_ok s1 (reg0 s1 I1)), H]|].
  intros [r v] s2 I2 E2 P. unfold moved in P. cbn in P. destruct v as [[reg a]|].
  { destruct P as (j & J & -> & Gr & Ga). cbn in Gr, Ga. apply okm_ret; [exact I2|]. exists j. cbn. split; [lia|]. split; [reflexivity|].
    apply good_var; [eapply region_ext|eapply loc_ext]; eassumption. }
  subst r. apply (or_else _ (fun sou => ps_l_form k sou)); [apply ps_lambda_ok; assumption|].
  intros s3 I3. apply ps_l_form_ok; assumption.
Qed.
Lemma ps_form_ok i s : (i <= len)%nat -> (len - i <= n)%nat -> Inv s -> okm (ps_form cx k (at_ i)) s (node_ok i).
Proof.
  intros H L Is. unfold ps_form. eapply okm_bind; [apply ps_former_ok; assumption|].
  intros [r leg] s1 I1 E1 P. unfold node_ok, moved in P. cbn in P. destruct leg as [f|].
  2:{ subst r. apply okm_ret; [exact I1|reflexivity]. }
  destruct P as (j & J & -> & G). cbv zeta. destruct (gap_at j ltac:(lia)) as (j2 & J2 & ->).
  destruct (sis ch_quest (at_ j2)) eqn:Q.
  2:{ apply okm_ret; [exact I1|]. exists j2. cbn. split; [lia|auto]. }
  apply at_sis in Q. rewrite at_from. destruct (gap_at (j2 + 1) ltac:(lia)) as (j3 & J3 & ->).
  eapply okm_bind; [apply ps_former_ok; [lia|lia|exact I1]|].
  intros [r leg] s2 I2 E2 P. unfold node_ok, moved in P. cbn in P. destruct leg as [c|]; [|apply okm_fail].
  destruct P as (j4 & J4 & -> & Gc). destruct (gap_at j4 ltac:(lia)) as (j5 & J5 & ->). destruct (sis ch_bar (at_ j5)) eqn:B.
  - apply at_sis in B. rewrite at_from. destruct (gap_at (j5 + 1) ltac:(lia)) as (j6 & J6 & ->).
    eapply okm_bind; [apply KF; [lia|lia|exact I2]|].
    intros [r leg] s3 I3 E3 P. unfold node_ok, moved in P. cbn in P. destruct leg as [e|]; [|apply okm_fail].
    destruct P as (j7 & J7 & -> & Ge). apply okm_ret; [exact I3|]. exists j7. cbn. split; [lia|]. split; [reflexivity|].
    apply good_cond; [eapply good_ext; eassumption| |exact Ge]. eapply good_ext; [|exact G]. eapply ext_trans; eassumption.
  - apply okm_ret; [exact I2|]. exists j5. cbn. split; [lia|]. split; [reflexivity|].
    apply good_cond; [exact Gc|eapply good_ext; eassumption|apply good_none].
Qed.

(** *** Imports *)
Definition name_import_ok : Prop := forall lib s, Inv s ->
  okm (let* key := import_source cx lib true in imp key) s (fun l s' => Forall (good s') l).
Definition other_imports_ok : Prop :=
  (forall lib s, Inv s -> okm (let* key := import_source cx lib false in imp key) s (fun l s' => Forall (good s') l)) /\
  (forall f s, Inv s -> okm (import_python cx f) s (fun _ _ => True)) /\
  (forall ast f p s, Inv s -> okm (let* key := import_eval cx ast f p in imp key) s (fun l s' => Forall (good s') l)).
Definition named_here : Prop := forall i, (i <= len)%nat -> sstarts ps_IMPORT (at_ i) = true ->
  snd (ps_atom (gap (at_ (i + 8)))) <> None.
Hypothesis IN : (exists i, (i <= len)%nat /\ sstarts ps_IMPORT (at_ i) = true) -> name_import_ok.
Hypothesis IO : named_here \/ other_imports_ok.

Lemma bind_assoc {A B C} (m : M A) (f : A -> M B) (g : B -> M C) s :
  bind m (fun x => bind (f x) g) s = bind (bind m f) g s.
Proof. unfold bind. destruct (m s) as [[a s']|e|]; reflexivity. Qed.
Lemma okm_assoc {A B C} (m : M A) (f : A -> M B) (g : B -> M C) s Q :
  okm (bind (bind m f) g) s Q -> okm (bind m (fun x => bind (f x) g)) s Q.
Proof. unfold okm. rewrite bind_assoc. trivial. Qed.
Lemma enclose_good s l : Forall (good s) l -> Forall (good s) (enclose_import l).
Proof.
  intros F. unfold enclose_import. destruct l as [|x l]; [constructor|]. constructor; [apply good_begin|].
  apply Forall_app. split; [exact F|]. constructor; [apply good_end|constructor].
Qed.
Definition items_ok (i : nat) (r : source * option (list node)) (s : yst) : Prop := moved (Forall (good s)) i r.
Lemma ps_import_ok i s : (i <= len)%nat -> (len - i <= n)%nat -> Inv s -> okm (ps_import cx imp k (at_ i)) s (items_ok i).
Proof.
  intros H L Is. unfold ps_import. destruct (sstarts ps_IMPORT (at_ i)) eqn:E; cbn [negb]; [|apply okm_ret; [exact Is|reflexivity]].
  assert (IN' : name_import_ok) by (apply IN; exists i; auto). pose proof E as E'.
  apply at_starts in E. cbn in E. cbv zeta. rewrite at_from.
  assert (IO' : snd (ps_atom (gap (at_ (i + 8)))) <> None \/ other_imports_ok) by (destruct IO as [X|X]; [left; apply X; assumption|right; exact X]).
  destruct (gap_at (i + 8) ltac:(lia)) as (j & J & Eg). rewrite Eg in *.
  eapply okm_bind with (Q := fun r s' => exists j2, (j <= j2 <= len)%nat /\ fst r = at_ j2 /\ Forall (good s') (snd r)).
  - destruct (atom_at j ltac:(lia)) as [Ea|(j2 & J2 & Ea)]; rewrite Ea in *.
    + destruct IO' as [X|(Iq & Ip & Ie)]; [exfalso; apply X; reflexivity|].
      eapply okm_bind; [apply okm_lift; [exact Is|apply (ps_quote_ok s (reg0 s Is)); lia]|].
      intros [r leg] s1 I1 E1 P. unfold moved in P. cbn in P. destruct leg as [x|].
      * destruct P as (j2 & J2 & -> & Gx & q & ->). cbn [leg_quote]. cbv zeta. destruct (splitext _) as [fn e]. destruct (teqb _ _).
        -- eapply okm_bind; [apply Ip, I1|]. intros u s2 I2 E2 _. apply okm_ret; [exact I2|]. exists j2. cbn. split; [lia|]. split; [reflexivity|constructor].
        -- apply okm_assoc. eapply okm_bind; [apply Iq, I1|]. intros l s2 I2 E2 F. apply okm_ret; [exact I2|]. exists j2. cbn. split; [lia|].
           split; [reflexivity|apply enclose_good, F].
      * subst r. cbn [leg_quote]. eapply okm_bind; [apply ps_infix_ok; [lia|lia|exact I1]|].
        intros [r leg] s2 I2 E2 P. unfold node_ok, moved in P. cbn in P. destruct leg as [x|]; [|apply okm_fail].
        destruct P as (j2 & J2 & -> & G). destruct (leg_infix (Some x)) as [[[ast file] pos]|]; [|apply okm_fail]. apply okm_assoc.
        eapply okm_bind; [apply Ie, I2|]. intros a3 s3 I3 E3 F. apply okm_ret; [exact I3|]. exists j2. cbn. split; [lia|auto].
    + apply okm_assoc. eapply okm_bind; [apply IN', Is|]. intros a3 s3 I3 E3 F. apply okm_ret; [exact I3|]. exists j2. cbn. split; [lia|].
      split; [reflexivity|apply enclose_good, F].
  - intros [r items] s' Is' Ex (j2 & J2 & Er & F). cbn in Er, F. subst r. destruct (gap_at j2 ltac:(lia)) as (j3 & J3 & ->).
    destruct (skip_tag_at ps_IMPORT_T j3 ltac:(lia)) as (j4 & J4 & ->). destruct (sis ch_close (at_ j4)) eqn:C; [|apply okm_fail].
    apply at_sis in C. apply okm_ret; [exact Is'|]. rewrite at_from. exists (j4 + 1)%nat. cbn. split; [lia|auto].
Qed.

(** *** Text *)
Lemma item_one (m : source -> M (source * option node)) (b : source -> M (source * option (list node))) i s :
  okm (m (at_ i)) s (node_ok i) -> (forall s', Inv s' -> okm (b (at_ i)) s' (items_ok i)) ->
  okm (let* (sou, leg) := m (at_ i) in match leg with Some x => ret (sou, Some [x]) | None => b sou end) s (items_ok i).
Proof.
  intros A B. eapply okm_bind; [exact A|]. intros [r leg] s1 I1 E1 P. unfold node_ok, moved in P. cbn in P. destruct leg as [y|].
  - apply okm_ret; [exact I1|]. destruct P as (j & J & -> & G). exists j. cbn. auto.
  - subst r. apply B, I1.
Qed.
Lemma lift_node r i s : Inv s -> okr r (moved (good s) i) -> okm (lift r) s (node_ok i).
Proof.
  intros Is P. eapply okm_weak; [apply okm_lift; [exact Is|exact P]|]. intros [r0 leg] s1 I1 E1 Q. unfold node_ok, moved in *. cbn in *.
  destruct leg; [|exact Q]. destruct Q as (j & J & -> & G). exists j. split; [lia|]. split; [reflexivity|eapply good_ext; eassumption].
Qed.
Lemma quote_node i s py : (i <= len)%nat -> Inv s -> okm (lift (ps_quote py (at_ i))) s (node_ok i).
Proof.
  intros H Is. apply lift_node; [exact Is|]. pose proof (ps_quote_ok s (reg0 s Is) py i H) as P. destruct (ps_quote py (at_ i)) as [[r [x|]]|e|]; cbn [okr] in *; try exact P.
  unfold moved in *. cbn in *. destruct P as (j & J & E & G & _). exists j. auto.
Qed.
Lemma text_item_ok i s : (i <= len)%nat -> (len - i <= n)%nat -> Inv s -> okm (text_item cx imp k (at_ i)) s (items_ok i).
Proof.
  intros H L Is. unfold text_item.
  eapply okm_bind; [apply ps_set_ok; assumption|]. intros [r leg] s1 I1 E1 P. unfold node_ok, moved in P. cbn in P. destruct leg as [y|].
  { apply okm_ret; [exact I1|]. destruct P as (j & J & -> & G). exists j. cbn. auto. } subst r.
  eapply okm_bind; [apply ps_let_ok; assumption|]. intros [r leg] s2 I2 E2 P. unfold node_ok, moved in P. cbn in P. destruct leg as [y|].
  { apply okm_ret; [exact I2|]. destruct P as (j & J & -> & G). exists j. cbn. auto. } subst r.
  eapply okm_bind; [apply ps_import_ok; assumption|]. intros [r leg] s3 I3 E3 P. unfold items_ok, moved in P. cbn in P. destruct leg as [y|].
  { apply okm_ret; [exact I3|]. destruct P as (j & J & -> & G). exists j. cbn. auto. } subst r.
  eapply okm_bind; [apply lift_node; [exact I3|apply (ps_macro_good s3 (reg0 s3 I3)), H]|]. intros [r leg] s4 I4 E4 P. unfold node_ok, moved in P. cbn in P. destruct leg as [y|].
  { apply okm_ret; [exact I4|]. destruct P as (j & J & -> & G). exists j. cbn. auto. } subst r.
  eapply okm_bind; [apply lift_node; [exact I4|apply ps_comment_ok, H]|]. intros [r leg] s5 I5 E5 P. unfold node_ok, moved in P. cbn in P. destruct leg as [y|].
  { apply okm_ret; [exact I5|]. destruct P as (j & J & -> & G). exists j. cbn. auto. } subst r.
  eapply okm_bind; [apply ps_application_ok; assumption|]. intros [r leg] s6 I6 E6 P. unfold node_ok, moved in P. cbn in P. destruct leg as [y|].
  { apply okm_ret; [exact I6|]. destruct P as (j & J & -> & G). exists j. cbn. auto. } subst r.
  eapply okm_bind; [apply quote_node; assumption|]. intros [r leg] s7 I7 E7 P. unfold node_ok, moved in P. cbn in P. destruct leg as [y|].
  { apply okm_ret; [exact I7|]. destruct P as (j & J & -> & G). exists j. cbn. auto. } subst r.
  destruct (c_skip cx).
  - apply okm_ret; [exact I7|reflexivity].
  - eapply okm_bind; [apply lift_node; [exact I7|apply (ps_remark_c_ok s7 (reg0 s7 I7)), H]|]. intros [r leg] s8 I8 E8 P. unfold node_ok, moved in P. cbn in P.
    apply okm_ret; [exact I8|]. destruct leg as [y|]; cbn; [|exact P]. destruct P as (j & J & -> & G). exists j. cbn. auto.
  - destruct (ps_remark_python_at i H) as [->|(j & J & ->)]; apply okm_ret; [exact I7|reflexivity|exact I7|].
    exists j. cbn. split; [lia|]. split; [reflexivity|]. constructor; [|constructor]. apply good_remark, loc_here; assumption.
Qed.
Lemma text_items_ok m : forall ast i s, (i <= len)%nat -> (len - i <= n)%nat -> (len - i < m)%nat -> Inv s -> Forall (good s) ast ->
  okm (text_items cx imp m k ast (at_ i)) s (fun r s' => exists j, (i <= j <= len)%nat /\ fst r = at_ j /\ Forall (good s') (snd r)).
Proof.
  induction m as [|m IH]; intros ast i s H L Lm Is F; [lia|]. cbn [text_items]. eapply okm_bind; [apply text_item_ok; assumption|].
  intros [r items] s1 I1 E1 P. unfold items_ok, moved in P. cbn in P. destruct items as [l|].
  - destruct P as (j & J & -> & G). eapply okm_weak; [apply IH; [lia|lia|lia|exact I1|]|].
    + apply Forall_app. split; [eapply goods_ext; eassumption|exact G].
    + cbn. intros r s3 _ _ (j6 & J6 & X). exists j6. split; [lia|exact X].
  - subst r. apply okm_ret; [exact I1|]. exists i. cbn. split; [lia|]. split; [reflexivity|eapply goods_ext; eassumption].
Qed.
Lemma Forall_removelast {A} (P : A -> Prop) l : Forall P l -> Forall P (removelast l).
Proof. induction 1 as [|x l Hx F IH]; [constructor|]. cbn. destruct l; [constructor|]. constructor; assumption. Qed.
Lemma text_plain_ok s g i : Inv s -> tg_ok s g i -> okr (text_plain g) (fun g' => tg_started g' = true /\ tg_ok s g' (S i)).
Proof.
  intros Is (Eg & H & F & Pl). unfold text_plain.
  set (nonempty := match tg_ast g with [] => false | _ => true end). clearbody nonempty.
  set (reuse := teqb (s_txt (tg_sou g)) (tg_ret g) && nonempty).
  assert (K : match (if reuse then tg_plain g else Some (plain_start (tg_sou g) (tg_sq g) (tg_pth g) (if nonempty then IndNone else IndStr []))) with
              | None => True | Some pg => pg_ok pg i end).
  { destruct reuse eqn:R.
    - unfold reuse in R. apply andb_prop in R. destruct R as [R _]. apply teqb_eq in R. rewrite Eg in R. cbn in R.
      destruct Pl as [->|(pg & j & -> & Po & J & Et)]; [exact I|]. rewrite Et in R.
      assert (j = i) by (apply (f_equal (@length _)) in R; rewrite !skipn_length in R; lia). subst j. exact Po.
    - rewrite Eg. exists i. cbn. repeat split; lia. }
  assert (Fa : Forall (good s) (if reuse then removelast (tg_ast g) else tg_ast g)) by (destruct reuse; [apply Forall_removelast|]; exact F).
  cbv zeta. set (ast := if reuse then removelast (tg_ast g) else tg_ast g) in *. clearbody ast.
  destruct (if reuse then tg_plain g else _) as [pg|]; [|exact I]. clear Pl.
  pose proof (plain_next_ok pg i K) as P. destruct (plain_next pg) as [pg'|e|]; cbn [okr] in *; try exact P.
  destruct P as (Li & K'). split; [reflexivity|]. rewrite (pg_rest_at _ _ K'). split; [reflexivity|]. cbn. split; [lia|]. split.
  - apply forall_snoc; [exact Fa|]. eapply pg_leg_good; [apply reg0, Is|exact K'].
  - right. exists pg', (S i). auto.
Qed.
Lemma text_next_ok g i s : tg_ok s g i -> (len - i <= n)%nat -> Inv s -> okm (text_next cx imp k g) s (next_ok g i).
Proof.
  intros G L Is. unfold text_next.
  eapply okm_bind with (Q := fun g' s' => exists j, tg_ok s' g' j /\ (if tg_started g then (i < j)%nat else (i <= j)%nat)).
  - destruct (tg_started g).
    + eapply okm_weak; [apply okm_lift; [exact Is|apply text_plain_ok; eassumption]|]. intros g' s' Is' E (_ & G'). exists (S i).
      split; [eapply tg_ok_ext; eassumption|lia].
    + apply okm_ret; [exact Is|]. exists i. split; [exact G|lia].
  - intros g' s' Is' E (j & G' & J). destruct G' as (Eg & H & F & Pl). rewrite Eg, at_len.
    assert (J' : (i <= j)%nat) by (destruct (tg_started g); lia).
    eapply okm_bind; [apply text_items_ok; [lia|lia|lia|exact Is'|exact F]|].
    intros [sou ast] s2 I2 E2 (j2 & J2 & Es & F2). cbn in Es, F2. subst sou. apply okm_ret; [exact I2|]. exists j2. split; [|split; [reflexivity|destruct (tg_started g); lia]].
    split; [reflexivity|]. cbn. split; [lia|]. split; [exact F2|]. destruct Pl as [Pl|(pg & j3 & A & B & C & D)]; [left; exact Pl|].
    right. exists pg, j3. split; [exact A|]. split; [exact B|]. split; [lia|exact D].
Qed.
End Rec.

Section Whole.
Variable cx : pctx.
Variable imp : text -> M (list node).
Hypothesis IN : (exists i, (i <= len)%nat /\ sstarts ps_IMPORT (at_ i) = true) -> name_import_ok cx imp.
Hypothesis IO : named_here \/ other_imports_ok cx imp.

Lemma knot_ok n : (forall i s, (i <= len)%nat -> (len - i < n)%nat -> Inv s -> okm (k_form (knot cx imp n) (at_ i)) s (node_ok i)) /\
  (forall g i s, tg_ok s g i -> (len - i < n)%nat -> Inv s -> okm (k_next (knot cx imp n) g) s (next_ok g i)).
Proof.
  induction n as [|n [IF INx]]; [split; intros; lia|]. cbn [knot k_form k_next]. split.
  - intros i s H L Is. eapply ps_form_ok with (n := n); first [exact imp|eassumption|lia].
  - intros g i s G L Is. eapply text_next_ok with (n := n); first [eassumption|lia].
Qed.
Lemma whole_text_ok i s : (i <= len)%nat -> Inv s ->
  okm (drive_text (knot cx imp (S (len - i))) stop_eof (at_ i)) s (fun r s' => Forall (good s') (tg_ast (snd r))).
Proof.
  intros H Is. destruct (knot_ok (S (len - i))) as [KF KN]. eapply okm_weak; [eapply drive_text_ok with (n := S (len - i)); first [exact cx|exact imp|eassumption|lia]|].
  intros r s' Is' E (j & J & G & _). apply G.
Qed.
End Whole.
End Reg.
End Walk.
