(** * Text without constructs passes through *)
From Coq Require Import List NArith ZArith Bool Lia ZifyBool ZifyNat ZifyN.
From Verif Require Import PyStr PyStrFacts Ast Lex LexSpec LexFacts Parse ParseSpec ParseFacts ParseFacts2 ParseFacts3 Final Eval EnvSpec EnvFacts PpSpec.
Import ListNotations.
Open Scope N_scope.
Open Scope monad_scope.

Definition no_marks (t : text) : Prop := ~ occurs (lit "($") t /\ ~ occurs (lit "(`") t.
Lemma occurs_app p a b : occurs p b -> occurs p (a ++ b).
Proof. intros (x & y & ->). exists (a ++ x), y. rewrite app_assoc. reflexivity. Qed.
Lemma no_marks_tail a b : no_marks (a ++ b) -> no_marks b.
Proof. intros [H1 H2]. split; intros O; [apply H1|apply H2]; apply occurs_app, O. Qed.
Lemma no_dollar r s : no_marks (s_txt s) -> sstarts (40 :: 36 :: r) s = false.
Proof.
  intros [H _]. unfold sstarts. destruct (startswith _ _) eqn:E; [|reflexivity]. apply startswith_spec in E as [q E].
  exfalso. apply H. exists [], (r ++ q). exact E.
Qed.
Lemma no_back r s : no_marks (s_txt s) -> sstarts (40 :: 96 :: r) s = false.
Proof.
  intros [_ H]. unfold sstarts. destruct (startswith _ _) eqn:E; [|reflexivity]. apply startswith_spec in E as [q E].
  exfalso. apply H. exists [], (r ++ q). exact E.
Qed.

(** What may go wrong in such a text: unclosed C comments if comments are
    looked for, unclosed string literals of a Python output. *)
Definition may_fail (cx : pctx) (t : text) : Prop :=
  (c_python cx = true /\ (In 34 t \/ In 39 t)) \/ (c_skip cx = SkipC /\ occurs (lit "/*") t).
Lemma may_fail_app cx a b : may_fail cx b -> may_fail cx (a ++ b).
Proof.
  intros [[P H]|[P H]]; [left|right]; (split; [exact P|]).
  - destruct H; [left|right]; apply in_or_app; auto.
  - apply occurs_app, H.
Qed.

Lemma sfrom_split k s : s_txt s = firstn k (s_txt s) ++ s_txt (sfrom k s).
Proof. destruct s as [t f p]. cbn [s_txt sfrom]. symmetry. apply firstn_skipn. Qed.

Lemma py_head_quote ln h : py_head ln = Some h -> In 34 ln \/ In 39 ln.
Proof.
  unfold py_head, py_head_at. set (i := py_prefix_len ln). clearbody i.
  assert (K : forall a r, skipn i ln = a :: r -> (a =? ch_squote) || (a =? ch_dquote) = true -> In 34 ln \/ In 39 ln).
  { intros a r E H. assert (In a ln) by (rewrite <- (firstn_skipn i ln), E; apply in_or_app; right; left; reflexivity).
    unfold ch_squote, ch_dquote in H. assert (a = 34 \/ a = 39) as [-> | ->] by lia; auto. }
  destruct (skipn i ln) as [|a [|b [|c r]]] eqn:E; intros H; try discriminate.
  1,2: destruct ((a =? ch_squote) || (a =? ch_dquote)) eqn:Q; [eapply K; eauto|discriminate].
  apply (K a (b :: c :: r) eq_refl).
  destruct ((a =? ch_squote) || (a =? ch_dquote)) eqn:Q; [reflexivity|].
  apply orb_false_iff in Q as [Q1 Q2]. rewrite Q1, Q2 in H. cbn in H. discriminate.
Qed.
Lemma py_string_len_quote t r : py_string_len t = r -> r <> Ok None -> In 34 t \/ In 39 t.
Proof.
  unfold py_string_len. set (ln := firstn (getline_len t) t).
  destruct (py_head ln) as [h|] eqn:E; [|intros <- H; congruence].
  intros _ _. apply py_head_quote in E.
  assert (S : forall c, In c ln -> In c t) by (intros c H; rewrite <- (firstn_skipn (getline_len t) t); apply in_or_app; left; exact H).
  destruct E; auto.
Qed.

(** one construct: only literals and remarks *)
Definition item_result (cx : pctx) (sou : source) (s : yst) (r : res (source * option (list node) * yst)) : Prop :=
  match r with
  | Ok (sou', None, s') => sou' = sou /\ s' = s
  | Ok (sou', Some l, s') => s' = s /\ exists x w, l = [x] /\ piece_of_text x w /\ w <> [] /\ s_txt sou = w ++ s_txt sou'
  | Err _ => may_fail cx (s_txt sou)
  | Fuel => False
  end.

Lemma piece_to k s (c : source -> node) : (forall t f p, piece_of_text (c (Src t f p)) t) -> piece_of_text (c (sto k s)) (firstn k (s_txt s)).
Proof. intros H. destruct s as [t f p]. cbn [sto s_txt]. apply H. Qed.
Lemma firstn_pos {A} k (l : list A) : (0 < k <= length l)%nat -> firstn k l <> [].
Proof. destruct k, l; cbn; try lia; discriminate. Qed.

Lemma remark_item cx sou s : item_result cx sou s
  ((match c_skip cx with
    | SkipC => let* r := lift (ps_remark_c sou) in ret (fst r, option_map (fun x => [x]) (snd r))
    | SkipPython =>
        let '(sou, leg) := ps_remark_python sou in
        ret (sou, option_map (fun s => [NRemark s]) leg)
    | SkipNone => ret (sou, None)
    end) s).
Proof.
  destruct (c_skip cx) eqn:C.
  - cbn. auto.
  - unfold ps_remark_c. destruct (sstarts (lit "//") sou) eqn:E1.
    + set (i := (2 + span_len _ _)%nat). unfold item_result, bind, lift, ret. cbn [fst snd option_map].
      split; [reflexivity|]. eexists _, (firstn i (s_txt sou)). split; [reflexivity|]. split; [|split].
      * apply (piece_to i sou NRemark). constructor.
      * apply firstn_pos. subst i. unfold sstarts in E1. apply startswith_length in E1. cbn in E1.
        pose proof (span_len_le (fun c => negb (ps_EOL c)) (skipn 2 (s_txt sou))) as L. rewrite skipn_length in L. lia.
      * apply sfrom_split.
    + destruct (sstarts (lit "/*") sou) eqn:E2; [|cbn; auto].
      destruct (find_close_remark (skipn 2 (s_txt sou))) as [k|] eqn:F.
      * set (i := (2 + k + 2)%nat). unfold item_result, bind, lift, ret. cbn [fst snd option_map].
        split; [reflexivity|]. eexists _, (firstn i (s_txt sou)). split; [reflexivity|]. split; [|split].
        -- apply (piece_to i sou NRemark). constructor.
        -- apply firstn_pos. subst i. apply find_close_le in F. rewrite skipn_length in F. lia.
        -- apply sfrom_split.
      * unfold item_result, bind, lift. right. split; [exact C|].
        unfold sstarts in E2. apply startswith_spec in E2 as [q E2]. exists [], q. exact E2.
  - unfold ps_remark_python. destruct (sis ch_hash sou) eqn:E1; [|cbn; auto].
    set (i := (1 + span_len _ _)%nat). unfold item_result, ret. cbn [option_map].
    split; [reflexivity|]. eexists _, (firstn i (s_txt sou)). split; [reflexivity|]. split; [|split].
    + apply (piece_to i sou NRemark). constructor.
    + apply firstn_pos. subst i. destruct sou as [[|c r] f p]; [discriminate|]. cbn [s_txt length skipn].
      pose proof (span_len_le (fun c => negb (ps_EOL c)) r). lia.
    + apply sfrom_split.
Qed.

Lemma quote_plain py sou : no_marks (s_txt sou) ->
  match ps_quote py sou with
  | Ok (sou', None) => sou' = sou
  | Ok (sou', Some x) => exists w, piece_of_text x w /\ w <> [] /\ s_txt sou = w ++ s_txt sou'
  | Err _ => py = true /\ (In 34 (s_txt sou) \/ In 39 (s_txt sou))
  | Fuel => False
  end.
Proof.
  intros N.
  assert (B : ps_backquote sou = Ok (sou, None)).
  { unfold ps_backquote. change ps_BQUOTE with [40; 96]. change ps_QUOTE with (40 :: 36 :: lit "quote").
    rewrite (no_back _ _ N), (no_dollar _ _ N). reflexivity. }
  unfold ps_quote. destruct py.
  - unfold ps_string_python. pose proof (py_string_len_ok (s_txt sou)) as K.
    destruct (py_string_len (s_txt sou)) as [[k|]|e|] eqn:E.
    + exists (firstn k (s_txt sou)). cbn in K. split; [|split].
      * apply (piece_to k sou NStr). constructor.
      * apply firstn_pos, K.
      * apply sfrom_split.
    + rewrite B. reflexivity.
    + split; [reflexivity|]. eapply py_string_len_quote; [exact E|discriminate].
    + exact K.
  - destruct (c_literal ch_dquote (s_txt sou)) as [k|] eqn:E1.
    { apply c_literal_le in E1. exists (firstn k (s_txt sou)). split; [constructor|]. split; [apply firstn_pos, E1|apply sfrom_split]. }
    destruct (c_literal ch_squote (s_txt sou)) as [k|] eqn:E2.
    { apply c_literal_le in E2. exists (firstn k (s_txt sou)). split; [constructor|]. split; [apply firstn_pos, E2|apply sfrom_split]. }
    rewrite B. reflexivity.
Qed.

Lemma item_plain cx imp k sou s : no_marks (s_txt sou) -> item_result cx sou s (text_item cx imp k sou s).
Proof.
  intros N. pose proof (remark_item cx sou s) as R. pose proof (quote_plain (c_python cx) sou N) as Q.
  unfold text_item.
  assert (E1 : ps_set k sou = ret (sou, None)) by (unfold ps_set; rewrite (no_dollar (lit "set") sou N : sstarts ps_SET sou = false); reflexivity).
  assert (E2 : ps_let k sou = ret (sou, None)) by (unfold ps_let; rewrite (no_dollar (lit "let") sou N : sstarts ps_LET sou = false); reflexivity).
  assert (E3 : ps_import cx imp k sou = ret (sou, None)) by (unfold ps_import; rewrite (no_dollar (lit "import") sou N : sstarts ps_IMPORT sou = false); reflexivity).
  assert (E4 : ps_macro sou = Ok (sou, None)) by (unfold ps_macro; rewrite (no_dollar (lit "macro") sou N : sstarts ps_MACRO sou = false); reflexivity).
  assert (E5 : ps_comment sou = Ok (sou, None)) by (unfold ps_comment; rewrite (no_dollar (lit "!") sou N : sstarts ps_COMMENT sou = false); reflexivity).
  assert (E6 : ps_application k sou = ret (sou, None)) by (unfold ps_application; rewrite (no_dollar [] sou N : sstarts (lit "($") sou = false); reflexivity).
  rewrite E1. unfold bind at 1, ret at 1. cbv beta iota. rewrite E2. unfold bind at 1, ret at 1. cbv beta iota.
  rewrite E3. unfold bind at 1, ret at 1. cbv beta iota. rewrite E4. unfold bind at 1, lift at 1. cbv beta iota.
  rewrite E5. unfold bind at 1, lift at 1. cbv beta iota. rewrite E6. unfold bind at 1, ret at 1. cbv beta iota.
  unfold bind at 1, lift at 1. destruct (ps_quote (c_python cx) sou) as [[sou' [x|]]|e|].
  - destruct Q as (w & P & W & T). unfold ret, item_result. split; [reflexivity|]. exists x, w. auto.
  - subst sou'. exact R.
  - left. exact Q.
  - contradiction.
Qed.

Lemma spells_app l t l' t' : spells l t -> spells l' t' -> spells (l ++ l') (t ++ t').
Proof. induction 1; intros H'; cbn; [exact H'|]. rewrite <- app_assoc. constructor; auto. Qed.
Lemma spells_one x w : piece_of_text x w -> spells [x] w.
Proof. intros H. rewrite <- (app_nil_r w). repeat constructor. exact H. Qed.
Lemma items_plain cx imp k m : forall ast sou s, no_marks (s_txt sou) -> (length (s_txt sou) < m)%nat ->
  match text_items cx imp m k ast sou s with
  | Ok (sou', ast', s') => s' = s /\ exists extra w, ast' = ast ++ extra /\ spells extra w /\ s_txt sou = w ++ s_txt sou' /\
                             (w = [] -> extra = [])
  | Err _ => may_fail cx (s_txt sou)
  | Fuel => False
  end.
Proof.
  induction m as [|m IH]; intros ast sou s N Lm; [lia|]. cbn [text_items]. unfold bind.
  pose proof (item_plain cx imp k sou s N) as H. unfold item_result in H.
  destruct (text_item cx imp k sou s) as [[[sou' [l|]] s']|e|].
  - destruct H as [-> (x & w & -> & P & W & T)]. specialize (IH (ast ++ [x]) sou' s).
    rewrite T in N, Lm. rewrite app_length in Lm. assert (length w <> O) by (destruct w; [congruence|discriminate]).
    specialize (IH (no_marks_tail _ _ N) ltac:(lia)).
    destruct (text_items cx imp m k (ast ++ [x]) sou' s) as [[[sou2 ast2] s2]|e|].
    + destruct IH as [-> (extra & w2 & -> & S & T2 & _)]. split; [reflexivity|].
      exists (x :: extra), (w ++ w2). split; [rewrite <- app_assoc; reflexivity|]. split; [constructor; assumption|].
      split; [rewrite T, T2, app_assoc; reflexivity|]. destruct w; [congruence|discriminate].
    + rewrite T. apply may_fail_app, IH.
    + exact IH.
  - destruct H as [-> ->]. cbn. split; [reflexivity|]. exists [], []. rewrite app_nil_r. auto using sp_nil.
  - exact H.
  - contradiction.
Qed.

(** the generator of ps_text *)
Definition tg_spelled (t : text) (g : tgen) : Prop :=
  (exists w, spells (tg_ast g) w /\ t = w ++ s_txt (tg_sou g)) /\
  match tg_plain g with
  | None => tg_ret g = []
  | Some pg => tg_ret g = s_txt (pg_rest pg) /\ (0 < pg_i pg)%nat /\ (pg_i pg <= length (s_txt (pg_sou pg)))%nat /\
      (length (s_txt (tg_sou g)) <= length (tg_ret g))%nat /\
      (s_txt (tg_sou g) = tg_ret g -> exists ast0, tg_ast g = ast0 ++ [pg_leg pg])
  end.
Definition tg_plain_ok (t : text) (g : tgen) : Prop := no_marks (s_txt (tg_sou g)) /\ tg_spelled t g.
Lemma spells_snoc_inv l x t : spells (l ++ [x]) t -> exists a w, spells l a /\ piece_of_text x w /\ t = a ++ w.
Proof.
  revert t. induction l as [|y l IH]; intros t H; cbn in H.
  - inversion H as [|? ? w t' P S]; subst. inversion S; subst. exists [], w. rewrite app_nil_r. repeat split; auto using sp_nil.
  - inversion H as [|? ? w t' P S]; subst. apply IH in S as (a & w' & S & P' & ->). exists (w ++ a), w'.
    split; [constructor; assumption|]. split; [exact P'|apply app_assoc].
Qed.
Lemma app_same_tail {A} (w r r' : list A) : r = w ++ r' -> r = r' -> w = [].
Proof. intros E1 E2. apply (f_equal (@length A)) in E1. rewrite E2, app_length in E1. destruct w; [reflexivity|cbn in E1; lia]. Qed.

Lemma plain_next_cases g c r : s_txt (pg_rest g) = c :: r -> permitted c ->
  exists g', plain_next g = Ok g' /\ pg_sou g' = pg_sou g /\ pg_i g' = S (pg_i g).
Proof.
  intros E P. unfold plain_next. unfold pg_rest in E. destruct (pg_sou g) as [t f p] eqn:G. cbn [sfrom s_txt] in *.
  rewrite (skipn_nth _ _ _ _ E). replace (ps_ANY c) with true by (symmetry; apply ps_ANY_spec, P). cbn [negb].
  eexists. split; [reflexivity|]. cbn [pg_sou pg_i]. auto.
Qed.

Lemma text_plain_char t g c r : permitted c -> tg_spelled t g -> s_txt (tg_sou g) = c :: r ->
  exists g', text_plain g = Ok g' /\ tg_spelled t g' /\ s_txt (tg_sou g') = r.
Proof.
  intros P ((w & S & T) & L) E.
  unfold text_plain.
  set (nonempty := match tg_ast g with [] => false | _ => true end).
  destruct (teqb (s_txt (tg_sou g)) (tg_ret g) && nonempty) eqn:R.
  - apply andb_true_iff in R as [R1 R2]. apply teqb_eq in R1.
    destruct (tg_plain g) as [pg|]; [|rewrite R1, L in E; discriminate].
    destruct L as (L1 & L2 & L3 & _ & L4). destruct (L4 R1) as [ast0 A]. rewrite A, removelast_last.
    assert (Er : s_txt (pg_rest pg) = c :: r) by congruence.
    destruct (plain_next_cases pg c r Er P) as (pg' & -> & G1 & G2).
    eexists. split; [reflexivity|].
    rewrite A in S. apply spells_snoc_inv in S as (a & w' & Sa & Pw & ->).
    assert (R' : s_txt (pg_rest pg') = r).
    { unfold pg_rest in *. rewrite G1, G2. destruct (pg_sou pg) as [tt f p]. cbn [sfrom s_txt] in *.
      replace (S (pg_i pg)) with (pg_i pg + 1)%nat by lia. rewrite <- skipn_skipn', Er. reflexivity. }
    assert (Lp : (S (pg_i pg) <= length (s_txt (pg_sou pg)))%nat).
    { unfold pg_rest in Er. destruct (pg_sou pg) as [tt f p]. cbn [sfrom s_txt] in *.
      apply (f_equal (@length BinNums.N)) in Er. rewrite skipn_length in Er. cbn in Er. lia. }
    assert (W : spells [pg_leg pg'] (w' ++ [c])).
    { apply spells_one. unfold pg_leg in *. rewrite G1, G2. unfold pg_rest in Er.
      destruct (pg_sou pg) as [tt f p]. cbn [sfrom s_txt sto s_file s_pos] in *.
      assert (w' = firstn (pg_i pg) tt) as -> by (inversion Pw; reflexivity).
      replace (firstn (pg_i pg) tt ++ [c]) with (firstn (S (pg_i pg)) tt).
      - constructor.
      - clear -Er. revert tt Er. induction (pg_i pg) as [|i IH]; intros [|x tt] Er; cbn in *; try discriminate.
        + injection Er as -> ->. reflexivity.
        + f_equal. apply IH, Er. }
    split.
    + unfold tg_spelled. cbn [tg_sou tg_ast tg_plain tg_ret]. rewrite R'. split.
      * exists (a ++ w' ++ [c]). split; [apply spells_app; assumption|]. rewrite T, E. rewrite <- !app_assoc. reflexivity.
      * split; [reflexivity|]. rewrite G1, G2. split; [lia|]. split; [exact Lp|]. split; [reflexivity|]. intros _. eauto.
    + exact R'.
  - set (pg := plain_start (tg_sou g) (tg_sq g) (tg_pth g) (if nonempty then IndNone else IndStr [])).
    assert (Er : s_txt (pg_rest pg) = c :: r).
    { unfold pg_rest. cbn [pg plain_start pg_i pg_sou]. rewrite sfrom_0. exact E. }
    destruct (plain_next_cases pg c r Er P) as (pg' & -> & G1 & G2). cbn [pg plain_start pg_i pg_sou] in G1, G2.
    eexists. split; [reflexivity|].
    assert (R' : s_txt (pg_rest pg') = r).
    { unfold pg_rest in *. rewrite G1, G2. destruct (tg_sou g) as [tt f p]. cbn [sfrom s_txt] in *. rewrite E. reflexivity. }
    split.
    + unfold tg_spelled. cbn [tg_sou tg_ast tg_plain tg_ret]. rewrite R'. split.
      * exists (w ++ [c]). split.
        -- apply spells_app; [exact S|]. apply spells_one. unfold pg_leg. rewrite G1, G2.
           destruct (tg_sou g) as [tt f p]. cbn [sto s_txt] in *. rewrite E. constructor.
        -- rewrite T, E, <- app_assoc. reflexivity.
      * split; [reflexivity|]. rewrite G1, G2, E. cbn [length]. split; [lia|]. split; [lia|]. split; [reflexivity|]. intros _. eauto.
    + exact R'.
Qed.

Lemma text_plain_plain t g c r : Forall permitted t -> tg_plain_ok t g -> s_txt (tg_sou g) = c :: r ->
  exists g', text_plain g = Ok g' /\ tg_plain_ok t g' /\ s_txt (tg_sou g') = r.
Proof.
  intros Pt (N & G) E.
  assert (P : permitted c). { destruct G as ((w & S & T) & _). rewrite Forall_forall in Pt. apply Pt. rewrite T, E. apply in_or_app. right. left. reflexivity. }
  assert (Nr : no_marks r) by (rewrite E in N; apply (no_marks_tail [c] r N)).
  destruct (text_plain_char t g c r P G E) as (g' & H & G' & R). exists g'. unfold tg_plain_ok. rewrite R. auto.
Qed.

Lemma text_next_plain cx imp k t g s : Forall permitted t -> tg_plain_ok t g ->
  (tg_started g = true -> s_txt (tg_sou g) <> []) ->
  match text_next cx imp k g s with
  | Ok (g', s') => s' = s /\ tg_plain_ok t g' /\ tg_started g' = true /\
      (length (s_txt (tg_sou g')) + (if tg_started g then 1 else 0) <= length (s_txt (tg_sou g)))%nat
  | Err _ => may_fail cx t
  | Fuel => False
  end.
Proof.
  intros Pt G St. unfold text_next, bind.
  assert (G1 : exists g1, (if tg_started g then lift (text_plain g) else ret g) s = Ok (g1, s) /\ tg_plain_ok t g1 /\
    (length (s_txt (tg_sou g1)) + (if tg_started g then 1 else 0) <= length (s_txt (tg_sou g)))%nat).
  { destruct (tg_started g); [|exists g; split; [reflexivity|split; [exact G|lia]]].
    destruct (s_txt (tg_sou g)) as [|c r] eqn:E; [destruct (St eq_refl eq_refl)|].
    destruct (text_plain_plain t g c r Pt G E) as (g' & H & G' & Er). exists g'. unfold lift. rewrite H, Er. cbn [length]. split; [reflexivity|split; [exact G'|lia]]. }
  destruct G1 as (g1 & -> & (N & (w & S & T) & L) & Lg).
  pose proof (items_plain cx imp k (Datatypes.S (length (s_txt (tg_sou g1)))) (tg_ast g1) (tg_sou g1) s N ltac:(lia)) as H.
  destruct (text_items _ _ _ _ _ _ _) as [[[sou' ast'] s']|e|]; [|rewrite T; apply may_fail_app, H|exact H].
  destruct H as [-> (extra & w2 & -> & S2 & T2 & Ex)]. unfold ret. split; [reflexivity|].
  cbn [tg_sou tg_started].
  assert (Lt : (length (s_txt sou') + (if tg_started g then 1 else 0) <= length (s_txt (tg_sou g)))%nat)
    by (apply (f_equal (@length BinNums.N)) in T2; rewrite app_length in T2; lia).
  split; [|split; [reflexivity|exact Lt]].
  unfold tg_plain_ok, tg_spelled. cbn [tg_sou tg_ast tg_plain tg_ret]. split; [rewrite T2 in N; eapply no_marks_tail, N|]. split.
  - exists (w ++ w2). split; [apply spells_app; assumption|]. rewrite T, T2. apply app_assoc.
  - destruct (tg_plain g1) as [pg|]; [|exact L]. destruct L as (L1 & L2 & L3 & L5 & L4). split; [exact L1|]. split; [exact L2|].
    split; [exact L3|]. pose proof (f_equal (@length BinNums.N) T2) as Len. rewrite app_length in Len. split; [lia|]. intros E'.
    assert (W : w2 = []) by (rewrite <- E' in L5; destruct w2; [reflexivity|cbn [length] in Len; lia]).
    rewrite (Ex W), app_nil_r. apply L4. rewrite T2, W. exact E'.
Qed.

Lemma drive_plain cx imp k t n : Forall permitted t -> forall g s, tg_plain_ok t g ->
  (tg_started g = true -> s_txt (tg_sou g) <> []) ->
  (length (s_txt (tg_sou g)) + (if tg_started g then 0 else 1) < n)%nat ->
  (forall g s, exists k', k_next k g s = text_next cx imp k' g s) ->
  match drive n k stop_eof g s with
  | Ok (rest, g', s') => s' = s /\ spells (tg_ast g') t
  | Err _ => may_fail cx t
  | Fuel => False
  end.
Proof.
  intros Pt. induction n as [|n IH]; intros g s G St Ln K; [lia|]. cbn [drive]. unfold bind.
  destruct (K g s) as [k' ->].
  pose proof (text_next_plain cx imp k' t g s Pt G St) as N.
  destruct (text_next cx imp k' g s) as [[g' s']|e|] eqn:E; [|exact N|exact N]. destruct N as [-> (G' & S' & L')].
  unfold stop_eof at 1. destruct (s_txt (tg_sou g')) as [|c r] eqn:Et.
  - cbn. split; [reflexivity|]. destruct G' as (_ & (w & S & T) & _). rewrite Et, app_nil_r in T. subst w. exact S.
  - apply IH; [exact G'|congruence| |exact K]. rewrite S', Et. destruct (tg_started g); lia.
Qed.
Lemma whole_plain cx imp t sou s : plain_text t -> s_txt sou = t ->
  match drive_text (knot cx imp (S (length t))) stop_eof sou s with
  | Ok (rest, g', s') => s' = s /\ spells (tg_ast g') t
  | Err _ => may_fail cx t
  | Fuel => False
  end.
Proof.
  intros (Pt & N1 & N2) E. unfold drive_text. rewrite E.
  apply (drive_plain cx imp); [exact Pt| |discriminate| |intros; exists (knot cx imp (length t)); reflexivity].
  - unfold tg_plain_ok, tg_spelled. cbn [text_start tg_sou tg_ast tg_plain tg_ret]. rewrite E. split; [split; assumption|].
    split; [exists []; split; [constructor|reflexivity]|reflexivity].
  - cbn [text_start tg_sou tg_started]. rewrite E. lia.
Qed.

(** ** The tree of such a text *)
Definition no_header (cx : pctx) (key t : text) : Prop :=
  c_python cx = false \/ key <> c_main cx \/ forall s, ps_header_python (Src t (Some key) 0) s = Ok (Src t (Some key) 0, None, s).
Lemma parse_plain_text cx d key s decl t : plain_text t -> no_header cx key t ->
  dict_get key (y_source s) = Some (decl, t) ->
  match yuparse cx (S d) key s with
  | Ok (l, s') => s' = s /\ spells l t
  | Err _ => may_fail cx t
  | Fuel => False
  end.
Proof.
  intros P H D. destruct t as [|c t].
  { cbn [yuparse]. unfold yuparse_with, bind, get_st. rewrite D. cbn. auto using sp_nil. }
  set (t1 := c :: t) in *.
  assert (Hd : (if teqb (c_main cx) key && c_python cx then ps_header_python (Src t1 (Some key) 0) else ret (Src t1 (Some key) 0, None)) s
               = Ok (Src t1 (Some key) 0, None, s)).
  { destruct H as [H|[H|H]].
    - rewrite H, andb_false_r. reflexivity.
    - replace (teqb (c_main cx) key) with false by (symmetry; apply teqb_neq; congruence). reflexivity.
    - destruct (_ && _); [apply H|reflexivity]. }
  cbn [yuparse]. unfold yuparse_with. unfold bind at 1, get_st. rewrite D. unfold t1 at 1. cbv iota. fold t1.
  unfold bind at 1. rewrite Hd. cbn [s_txt]. unfold t1 at 1. cbv iota. unfold bind.
  pose proof (whole_plain cx (yuparse cx d) t1 (Src t1 (Some key) 0) s P eq_refl) as G.
  destruct (drive_text _ _ _ _) as [[[rest g] s']|e|]; exact G.
Qed.
