(** Facts about the lexical level (proofs only). *)
From Coq Require Import List NArith ZArith Bool Lia.
From Coq Require Import ZifyBool ZifyNat ZifyN.
From Verif Require Import PyStr Ast Lex PyStrFacts LexSpec.
Import ListNotations.
Open Scope N_scope.

(** ** Runs *)
Lemma span_len_le p s : (span_len p s <= length s)%nat.
Proof. induction s as [|c s IH]; cbn [span_len length]; [lia|]. destruct (p c); lia. Qed.
Lemma span_len_app p a r :
  forallb p a = true -> match r with [] => True | c :: _ => p c = false end ->
  span_len p (a ++ r) = length a.
Proof.
  induction a as [|c a IH]; cbn [forallb app length].
  - intros _ Hr. destruct r as [|c r]; [reflexivity|]. cbn [span_len]. rewrite Hr; reflexivity.
  - intros H Hr. apply andb_true_iff in H as [Hc Ha]. cbn [span_len]. rewrite Hc. f_equal. auto.
Qed.
Lemma span_split p s :
  forallb p (firstn (span_len p s) s) = true /\
  match skipn (span_len p s) s with [] => True | c :: _ => p c = false end.
Proof.
  induction s as [|c s [IH1 IH2]]; [split; reflexivity|]. cbn [span_len].
  destruct (p c) eqn:E; cbn [firstn skipn forallb].
  - rewrite E. split; assumption.
  - split; [reflexivity|exact E].
Qed.

(** class correspondence *)
Lemma ps_LETTER_spec c : ps_LETTER c = true <-> letter c.
Proof. unfold ps_LETTER, letter. lia. Qed.
Lemma name_char_spec c : ps_LETTER c || ps_FIGURE c = true <-> name_char c.
Proof. unfold ps_LETTER, ps_FIGURE, name_char, letter, decimal_digit. lia. Qed.
Lemma ps_EOL_spec c : ps_EOL c = true <-> line_end c.
Proof. unfold ps_EOL, line_end. lia. Qed.
Lemma ps_SPACE_spec c : ps_SPACE c = true <-> blank c.
Proof. unfold ps_SPACE, blank. lia. Qed.
Lemma white_spec c : ps_EOL c || ps_SPACE c = true <-> white c.
Proof. unfold ps_EOL, ps_SPACE, white, blank, line_end. lia. Qed.
Lemma ps_ANY_spec c : ps_ANY c = true <-> permitted c.
Proof. unfold ps_ANY, permitted, line_end. lia. Qed.

Lemma forallb_Forall {A} (p : A -> bool) (P : A -> Prop) l :
  (forall c, p c = true <-> P c) -> (forallb p l = true <-> Forall P l).
Proof.
  intros H. rewrite forallb_forall, Forall_forall. split; intros F c Hc; apply H, F, Hc.
Qed.
Lemma stops_false (p : char -> bool) (P : char -> Prop) r :
  (forall c, p c = true <-> P c) ->
  (match r with [] => True | c :: _ => p c = false end <-> stops_at P r).
Proof.
  intros H. destruct r as [|c r]; [split; auto|]. cbn [stops_at]. rewrite <- H.
  destruct (p c); split; congruence.
Qed.

Lemma longest_run_span (p : char -> bool) (P : char -> Prop) s :
  (forall c, p c = true <-> P c) ->
  longest_run P s (firstn (span_len p s) s) (skipn (span_len p s) s).
Proof.
  intros H. destruct (span_split p s) as [H1 H2]. split; [symmetry; apply firstn_skipn|].
  split; [apply (forallb_Forall p P _ H), H1|apply (stops_false p P _ H), H2].
Qed.
Lemma longest_run_len (p : char -> bool) (P : char -> Prop) s a r :
  (forall c, p c = true <-> P c) ->
  longest_run P s a r -> span_len p s = length a.
Proof.
  intros H (-> & Ha & Hr). apply span_len_app.
  - apply (forallb_Forall p P _ H), Ha.
  - apply (stops_false p P _ H), Hr.
Qed.

(** ** Sources *)
Definition slen (s : source) : nat := length (s_txt s).
Lemma sfrom_0 s : sfrom 0 s = s.
Proof. destruct s as [t f p]. unfold sfrom. cbn. f_equal. lia. Qed.
Lemma sfrom_sfrom i j s : sfrom i (sfrom j s) = sfrom (j + i) s.
Proof.
  unfold sfrom. cbn. f_equal; [|lia]. apply skipn_skipn'.
Qed.
Lemma sfrom_app a r f p :
  sfrom (length a) (Src (a ++ r) f p) = Src r f (p + Z.of_nat (length a)).
Proof. unfold sfrom. cbn. rewrite skipn_length_app. reflexivity. Qed.
Lemma sto_app a r f p : sto (length a) (Src (a ++ r) f p) = Src a f p.
Proof. unfold sto. cbn. rewrite firstn_length_app. reflexivity. Qed.
Lemma slen_sfrom i s : slen (sfrom i s) = (slen s - i)%nat.
Proof. unfold slen, sfrom. cbn. apply skipn_length. Qed.

Lemma src_pos t f p q : p = q -> Src t f p = Src t f q.
Proof. intros ->; reflexivity. Qed.

(** ** C04 *)
Lemma ps_atom_ident a r f p :
  identifier a -> stops_at name_char r ->
  ps_atom (Src (a ++ r) f p) = (Src r f (p + Z.of_nat (length a)), Some (Src a f p)).
Proof.
  destruct a as [|c a]; [intros []|]. intros [Hc Ha] Hr. unfold ps_atom. cbn [s_txt app].
  apply ps_LETTER_spec in Hc. rewrite Hc.
  rewrite (span_len_app _ a r).
  - change (c :: a ++ r) with ((c :: a) ++ r). change (S (length a)) with (length (c :: a)).
    rewrite sfrom_app, sto_app. reflexivity.
  - apply (forallb_Forall _ name_char _ name_char_spec), Ha.
  - apply (stops_false _ name_char _ name_char_spec), Hr.
Qed.
Lemma ps_atom_none s : stops_at letter (s_txt s) -> ps_atom s = (s, None).
Proof.
  intros H. unfold ps_atom. rewrite sfrom_0. destruct (s_txt s) as [|c r]; [reflexivity|].
  cbn [stops_at] in H. rewrite <- ps_LETTER_spec in H. destruct (ps_LETTER c); [contradiction H; reflexivity|reflexivity].
Qed.
Lemma ps_atom_split s r a :
  ps_atom s = (r, Some a) ->
  identifier (s_txt a) /\ stops_at name_char (s_txt r) /\
  s = Src (s_txt a ++ s_txt r) (s_file s) (s_pos s) /\
  a = Src (s_txt a) (s_file s) (s_pos s) /\
  r = Src (s_txt r) (s_file s) (s_pos s + Z.of_nat (length (s_txt a))).
Proof.
  unfold ps_atom. destruct s as [t f p]. cbn [s_txt s_file s_pos].
  destruct t as [|c t]; [discriminate|]. destruct (ps_LETTER c) eqn:Ec; [|discriminate].
  intros [= <- <-]. unfold sfrom, sto. cbn [s_txt s_file s_pos].
  set (n := span_len _ t). cbn [firstn skipn].
  destruct (span_split (fun c => ps_LETTER c || ps_FIGURE c) t) as [H1 H2]. fold n in H1, H2.
  repeat split.
  - apply ps_LETTER_spec, Ec.
  - apply (forallb_Forall _ name_char _ name_char_spec), H1.
  - apply (stops_false _ name_char _ name_char_spec), H2.
  - cbn [app]. rewrite firstn_skipn. reflexivity.
  - f_equal. f_equal. cbn [length]. rewrite firstn_length_le by apply span_len_le. reflexivity.
Qed.
Lemma ps_atom_none_inv s r : ps_atom s = (r, None) -> r = s /\ stops_at letter (s_txt s).
Proof.
  unfold ps_atom. rewrite sfrom_0. destruct (s_txt s) as [|c t]; [intros [= <-]; split; [reflexivity|exact I]|].
  destruct (ps_LETTER c) eqn:E; [discriminate|]. intros [= <-]. split; [reflexivity|].
  cbn. rewrite <- ps_LETTER_spec. congruence.
Qed.

Lemma ps_space_run a r f p :
  Forall blank a -> stops_at blank r ->
  ps_space (Src (a ++ r) f p) = (Src r f (p + Z.of_nat (length a)), or_none (Src a f p)).
Proof.
  intros Ha Hr. unfold ps_space. cbn [s_txt].
  rewrite (longest_run_len ps_SPACE blank (a ++ r) a r ps_SPACE_spec);
    [|repeat split; assumption].
  rewrite sfrom_app, sto_app. reflexivity.
Qed.
Lemma ps_gap_run a r f p :
  Forall white a -> stops_at white r ->
  ps_gap (Src (a ++ r) f p) = (Src r f (p + Z.of_nat (length a)), or_none (Src a f p)).
Proof.
  intros Ha Hr. unfold ps_gap. cbn [s_txt].
  rewrite (longest_run_len (fun c => ps_EOL c || ps_SPACE c) white (a ++ r) a r white_spec);
    [|repeat split; assumption].
  rewrite sfrom_app, sto_app. reflexivity.
Qed.
Lemma gap_run a r f p :
  Forall white a -> stops_at white r ->
  gap (Src (a ++ r) f p) = Src r f (p + Z.of_nat (length a)).
Proof. intros Ha Hr. unfold gap. rewrite ps_gap_run by assumption. reflexivity. Qed.
Lemma gap_none s : stops_at white (s_txt s) -> gap s = s.
Proof.
  intros H. destruct s as [t f p]. change t with ([] ++ t) at 1. rewrite gap_run; [|constructor|exact H].
  cbn. f_equal. lia.
Qed.

(** ** The plain generator over balanced text *)
Lemma plain_until_close_ok n body rest f pos i pth ind sq :
  Forall permitted body -> nesting pth body 0 -> body <> [] -> (length body <= n)%nat ->
  forall pre, length pre = i ->
  exists g, plain_until_close n (PG (Src (pre ++ body ++ 41 :: rest) f pos) i sq pth ind)
          = Ok (Src rest f (pos + Z.of_nat (i + length body + 1)), g)
      /\ pg_sou g = Src (pre ++ body ++ 41 :: rest) f pos /\ pg_i g = (i + length body)%nat.
Proof.
  revert body i pth ind sq. induction n as [|n IH]; intros body i pth ind sq Hp Hn Hne Hl pre Hpre.
  { destruct body; [contradiction|cbn in Hl; lia]. }
  destruct body as [|c body]; [contradiction|].
  cbn [plain_until_close]. unfold plain_next. cbn [pg_sou s_txt pg_i].
  rewrite nth_error_app2 by lia. rewrite Hpre, Nat.sub_diag. cbn [app nth_error].
  assert (Hc := Forall_inv Hp). apply ps_ANY_spec in Hc. rewrite Hc. cbn [negb].
  set (pth' := if c =? ch_open then S pth else if c =? ch_close then pred pth else pth).
  cbn [pg_sq pg_pth pg_ind]. fold pth'.
  set (ind' := if ps_EOL c then _ else _). set (sq' := if c =? ch_sq_open then _ else _).
  assert (nesting pth' body 0) as Hn'.
  { unfold pth', ch_open, ch_close. inversion Hn; subst; cbn.
    - assumption.
    - assumption.
    - destruct (c =? 40) eqn:E1; [lia|]. destruct (c =? 41) eqn:E2; [lia|]. assumption. }
  unfold pg_rest. cbn [pg_sou pg_i].
  assert (sfrom (S i) (Src (pre ++ c :: body ++ 41 :: rest) f pos)
    = Src (body ++ 41 :: rest) f (pos + Z.of_nat (S i))) as ->.
  { change (c :: body ++ 41 :: rest) with ((c :: body) ++ 41 :: rest). change ((c :: body) ++ 41 :: rest) with ([c] ++ body ++ 41 :: rest). rewrite app_assoc.
      replace (S i) with (length (pre ++ [c])) by (rewrite app_length; cbn; lia).
      rewrite sfrom_app. reflexivity. }
  destruct body as [|d body].
  - inversion Hn' as [d0 E0 | | |]; subst. cbn [app]. unfold sis. cbn [s_txt].
    change (41 =? ch_close) with true. cbn [pg_pth]. rewrite H. cbn [Nat.eqb andb].
    eexists. split; [|split].
    { f_equal. apply f_equal2; [|reflexivity]. unfold sfrom. cbn [s_txt s_file s_pos skipn].
      apply src_pos. cbn [length]. lia. }
    { reflexivity. }
    { cbn. lia. }
  - assert (sis ch_close (Src ((d :: body) ++ 41 :: rest) f (pos + Z.of_nat (S i)))
            && Nat.eqb pth' 0 = false) as ->.
    { unfold sis. cbn [s_txt app]. unfold ch_close. inversion Hn'; subst.
      - reflexivity.
      - cbn. reflexivity.
      - replace (d =? 41) with false by lia. reflexivity. }
    destruct (IH (d :: body) (S i) pth' ind' sq' (Forall_inv_tail Hp) Hn') with (pre := pre ++ [c])
      as (g & Hg & H1 & H2).
    + discriminate.
    + cbn in Hl |- *. lia.
    + rewrite app_length. cbn. lia.
    + rewrite <- app_assoc in Hg, H1. cbn [app] in Hg, H1 |- *.
      exists g. split; [|split; [exact H1|]].
      * etransitivity; [exact Hg|]. f_equal. apply f_equal2; [|reflexivity]. apply src_pos. cbn [length]. lia.
      * rewrite H2. cbn [length]. lia.
Qed.

Lemma plain_body_ok body rest f pos :
  Forall permitted body -> balanced body -> body <> [] ->
  exists g, plain_body (Src (body ++ 41 :: rest) f pos)
          = Ok (Src rest f (pos + Z.of_nat (length body + 1)), g)
      /\ pg_sou g = Src (body ++ 41 :: rest) f pos /\ pg_i g = length body.
Proof.
  intros Hp Hb Hne. unfold plain_body, plain_start. cbn [s_txt].
  destruct (plain_until_close_ok (S (length (body ++ 41 :: rest))) body rest f pos 0 0 IndNone 0
              Hp Hb Hne) with (pre := @nil char) as (g & H1 & H2 & H3).
  - rewrite app_length. lia.
  - reflexivity.
  - exists g. split; [|split]; [exact H1|exact H2|exact H3].
Qed.

Lemma stops_balanced body rest f p :
  balanced body -> body <> [] -> sis ch_close (Src (body ++ rest) f p) = false.
Proof.
  intros Hb Hne. destruct body as [|c body]; [contradiction|]. unfold sis. cbn [s_txt app].
  inversion Hb; subst; [reflexivity|]. apply N.eqb_neq. assumption.
Qed.

(** ** C06 *)
Lemma comment_ok body rest f pos :
  Forall permitted body -> balanced body ->
  ps_comment (Src (lit "($!" ++ body ++ 41 :: rest) f pos)
  = Ok (Src rest f (pos + Z.of_nat (3 + length body + 1)), Some NComment).
Proof.
  intros Hp Hb. unfold ps_comment. unfold sstarts. cbn [s_txt].
  change ps_COMMENT with (lit "($!"). rewrite startswith_app.
  change (sfrom 3 (Src (lit "($!" ++ body ++ 41 :: rest) f pos))
    with (Src (body ++ 41 :: rest) f (pos + 3)).
  destruct body as [|c body].
  - cbn [app sis s_txt]. change (41 =? ch_close) with true. unfold sfrom. cbn [s_txt s_file s_pos skipn].
    f_equal. apply f_equal2; [|reflexivity]. apply src_pos. change (length (lit "($!")) with 3%nat || idtac. cbn [length]. lia.
  - rewrite stops_balanced by (assumption || discriminate).
    destruct (plain_body_ok (c :: body) rest f (pos + 3) Hp Hb)
      as (g & -> & _); [discriminate|].
    f_equal. apply f_equal2; [|reflexivity]. apply src_pos. change (length (lit "($!")) with 3%nat. cbn [length]. lia.
Qed.

(** ** C07 *)
Lemma backquote_ok mark body rest f pos :
  mark = lit "(`" \/ mark = lit "($quote" ->
  Forall permitted body -> balanced body ->
  exists s, ps_backquote (Src (mark ++ body ++ 41 :: rest) f pos)
    = Ok (Src rest f (pos + Z.of_nat (length mark + length body + 1)), Some (NStr s))
    /\ s_txt s = body
    /\ (body <> [] -> s = Src body f (pos + Z.of_nat (length mark))).
Proof.
  intros Hm Hp Hb.
  assert (H : ps_backquote (Src (mark ++ body ++ 41 :: rest) f pos) =
    let sou := Src (body ++ 41 :: rest) f (pos + Z.of_nat (length mark)) in
      if sis ch_close sou then Ok (sfrom 1 sou, Some (NStr (raw [])))
      else match plain_body sou with
           | Ok (rest, g) => Ok (rest, Some (NStr (sto (pg_i g) (pg_sou g))))
           | Err e => Err e
           | Fuel => Fuel
           end).
  { unfold ps_backquote. unfold sstarts. cbn [s_txt].
    destruct Hm as [-> | ->].
    - change ps_BQUOTE with (lit "(`"). rewrite startswith_app.
      change 2%nat with (length (lit "(`")). rewrite sfrom_app. reflexivity.
    - change (startswith ps_BQUOTE (lit "($quote" ++ body ++ 41 :: rest)) with false.
      change ps_QUOTE with (lit "($quote"). rewrite startswith_app.
      change 7%nat with (length (lit "($quote")). rewrite sfrom_app. reflexivity. }
  rewrite H. cbn zeta. destruct body as [|c body].
  - cbn [app sis s_txt]. change (41 =? ch_close) with true. exists (raw []). split; [|split; [reflexivity|intros X; contradiction X; reflexivity]].
    unfold sfrom. cbn [s_txt s_file s_pos skipn].
    f_equal. apply f_equal2; [|reflexivity]. apply src_pos. change (length (lit "($!")) with 3%nat || idtac. cbn [length]. lia.
  - rewrite stops_balanced by (assumption || discriminate).
    destruct (plain_body_ok (c :: body) rest f (pos + Z.of_nat (length mark)) Hp Hb)
      as (g & -> & Hg & Hi); [discriminate|].
    exists (Src (c :: body) f (pos + Z.of_nat (length mark))). rewrite Hg, Hi, sto_app.
    split; [|split; reflexivity].
    f_equal. apply f_equal2; [|reflexivity]. apply src_pos. cbn [length]. lia.
Qed.
Lemma py_head_paren s : py_head (40 :: s) = None.
Proof. unfold py_head, py_prefix_len. cbn. unfold py_head_at. cbn. destruct s as [|a [|b s]]; reflexivity. Qed.
Lemma ps_quote_paren py s f p :
  ps_quote py (Src (40 :: s) f p) = ps_backquote (Src (40 :: s) f p).
Proof.
  unfold ps_quote. destruct py; [|reflexivity].
  unfold ps_string_python, py_string_len. cbn [s_txt].
  change (firstn (getline_len (40 :: s)) (40 :: s)) with (40 :: firstn (getline_len s) s).
  rewrite py_head_paren. reflexivity.
Qed.
Lemma quote_ok py mark body rest f pos :
  mark = lit "(`" \/ mark = lit "($quote" ->
  Forall permitted body -> balanced body ->
  exists s, ps_quote py (Src (mark ++ body ++ 41 :: rest) f pos)
    = Ok (Src rest f (pos + Z.of_nat (length mark + length body + 1)), Some (NStr s))
    /\ s_txt s = body
    /\ (body <> [] -> s = Src body f (pos + Z.of_nat (length mark))).
Proof.
  intros Hm Hp Hb. destruct (backquote_ok mark body rest f pos Hm Hp Hb) as (s & H & H').
  exists s. split; [|exact H']. rewrite <- H.
  destruct Hm as [-> | ->]; apply ps_quote_paren.
Qed.
