(** Macro definitions, remarks, line ends, numbers (proofs only). *)
From Coq Require Import List NArith ZArith Bool Lia.
From Coq Require Import ZifyBool ZifyNat ZifyN.
From Verif Require Import PyStr Ast Lex Parse PyStrFacts LexSpec LexFacts.
Import ListNotations.
Open Scope N_scope.

(** ** C11 *)
Lemma replace_crlf_cons c s :
  replace [13; 10] [10] (c :: s) =
  match s with
  | d :: r => if (c =? 13) && (d =? 10) then 10 :: replace [13; 10] [10] r
              else c :: replace [13; 10] [10] s
  | [] => [c]
  end.
Proof.
  unfold replace. cbn [replace_skip startswith length pred].
  destruct s as [|d r].
  - rewrite andb_false_r. reflexivity.
  - rewrite andb_true_r, (N.eqb_sym 13 c), (N.eqb_sym 10 d).
    destruct ((c =? 13) && (d =? 10)); reflexivity.
Qed.

Lemma unify_eol_unified s : unified s (unify_eol s).
Proof.
  unfold unify_eol, c_cr, c_lf. rewrite replace_char.
  remember (length s) as n eqn:En. assert (length s <= n)%nat as Hn by lia. clear En.
  revert s Hn. induction n as [|n IH]; intros s Hn.
  { destruct s; [constructor|cbn in Hn; lia]. }
  destruct s as [|c s]; [constructor|]. rewrite replace_crlf_cons.
  destruct s as [|d s].
  - cbn. destruct (c =? 13) eqn:E; [apply N.eqb_eq in E; subst|].
    + apply uni_cr; [discriminate|constructor].
    + apply uni_other; [lia|constructor].
  - cbn [length] in Hn. destruct (c =? 13) eqn:Ec; cbn [andb].
    + apply N.eqb_eq in Ec; subst c. destruct (d =? 10) eqn:Ed.
      * apply N.eqb_eq in Ed; subst d. cbn [map]. change (10 =? 13) with false.
        apply uni_crlf. apply IH. lia.
      * cbn [map]. change (13 =? 13) with true. apply uni_cr; [|apply IH; cbn; lia].
        intros r [= -> _]. discriminate.
    + cbn [map]. rewrite Ec. apply uni_other; [lia|apply IH; cbn; lia].
Qed.
Lemma unified_no_cr s t : unified s t -> ~ In 13 t.
Proof.
  induction 1; cbn; intuition (try discriminate; subst; auto).
Qed.
Lemma unified_id s : ~ In 13 s -> unified s s.
Proof.
  induction s as [|c s IH]; intros H; [constructor|].
  apply uni_other; [intros ->; apply H; left; reflexivity|].
  apply IH. intros Hs; apply H; right; exact Hs.
Qed.
Lemma unified_fun s t t' : unified s t -> unified s t' -> t = t'.
Proof.
  intros H; revert t'. induction H; intros t' H'; inversion H'; subst; try congruence; try reflexivity;
    try (f_equal; auto; fail).
Qed.
Lemma unified_lines s t : unified s t -> line_ends t = line_ends s.
Proof.
  induction 1 as [|s t H IH|s t Hr H IH|c s t Hc H IH]; [reflexivity| | |].
  - cbn. rewrite IH; reflexivity.
  - cbn [line_ends]. change (10 =? 13) with false. change (10 =? 10) with true.
    change (13 =? 13) with true. cbn iota. rewrite IH. destruct s as [|d s]; [reflexivity|].
    destruct (d =? 10) eqn:E; [|reflexivity]. apply N.eqb_eq in E; subst. exfalso; eapply Hr; reflexivity.
  - cbn [line_ends]. apply N.eqb_neq in Hc. rewrite Hc, IH. reflexivity.
Qed.
Lemma unify_idem s : unify_eol (unify_eol s) = unify_eol s.
Proof.
  assert (H := unify_eol_unified s). assert (H1 := unify_eol_unified (unify_eol s)).
  eapply unified_fun; [exact H1|]. apply unified_id. eapply unified_no_cr; exact H.
Qed.
Lemma unify_id s : ~ In 13 s -> unify_eol s = s.
Proof.
  intros H. eapply unified_fun; [apply unify_eol_unified|]. apply unified_id, H.
Qed.

(** ** C09 *)
Lemma remark_line body rest f p :
  Forall (fun c => ~ line_end c) body -> rest = [] \/ (exists c r, rest = c :: r /\ line_end c) ->
  ps_remark_c (Src (lit "//" ++ body ++ rest) f p)
  = Ok (Src rest f (p + Z.of_nat (2 + length body)), Some (NRemark (Src (lit "//" ++ body) f p))).
Proof.
  intros Hb Hr. unfold ps_remark_c. unfold sstarts. cbn [s_txt]. rewrite startswith_app.
  change (skipn 2 (lit "//" ++ body ++ rest)) with (body ++ rest).
  rewrite (span_len_app _ body rest).
  - change (2 + length body)%nat with (length (lit "//") + length body)%nat.
    rewrite <- app_length. rewrite app_assoc, sfrom_app, sto_app. reflexivity.
  - apply (forallb_Forall _ (fun c => ~ line_end c)); [|exact Hb].
    intros c. rewrite negb_true_iff. rewrite <- ps_EOL_spec. destruct (ps_EOL c); intuition congruence.
  - destruct Hr as [->|(c & r & -> & Hc)]; [exact I|]. apply ps_EOL_spec in Hc. rewrite Hc. reflexivity.
Qed.
Lemma find_close_app body rest :
  ~ occurs (lit "*/") (body ++ lit "*") -> find_close_remark (body ++ lit "*/" ++ rest) = Some (length body).
Proof.
  induction body as [|c body IH]; intros H; [reflexivity|].
  change ((c :: body) ++ lit "*/" ++ rest) with (c :: (body ++ lit "*/" ++ rest)).
  cbn [find_close_remark].
  destruct (startswith (lit "*/") (c :: body ++ lit "*/" ++ rest)) eqn:E.
  - exfalso. apply H. cbn in E. destruct body as [|d body].
    + cbn in E. rewrite andb_false_r in E. discriminate.
    + cbn [app] in E. exists [], (body ++ lit "*"). cbn [app].
      apply andb_true_iff in E as [E1 E2]. apply andb_true_iff in E2 as [E2 _].
      apply N.eqb_eq in E1, E2. subst. reflexivity.
  - rewrite IH; [reflexivity|]. intros (a & b & Hab). apply H. exists (c :: a), b.
    cbn [app]. rewrite Hab. reflexivity.
Qed.
Lemma find_close_none s : ~ occurs (lit "*/") s -> find_close_remark s = None.
Proof.
  induction s as [|c s IH]; intros H; [reflexivity|]. cbn [find_close_remark].
  destruct (startswith (lit "*/") (c :: s)) eqn:E.
  - exfalso. apply H. apply startswith_spec in E as [r E]. exists [], r. exact E.
  - rewrite IH; [reflexivity|]. intros (a & b & ->). apply H. exists (c :: a), b. reflexivity.
Qed.
Lemma remark_block body rest f p :
  ~ occurs (lit "*/") (body ++ lit "*") ->
  ps_remark_c (Src (lit "/*" ++ body ++ lit "*/" ++ rest) f p)
  = Ok (Src rest f (p + Z.of_nat (2 + length body + 2)),
        Some (NRemark (Src (lit "/*" ++ body ++ lit "*/") f p))).
Proof.
  intros H. unfold ps_remark_c. unfold sstarts. cbn [s_txt].
  change (startswith (lit "//") (lit "/*" ++ body ++ lit "*/" ++ rest)) with false.
  rewrite startswith_app.
  change (skipn 2 (lit "/*" ++ body ++ lit "*/" ++ rest)) with (body ++ lit "*/" ++ rest).
  rewrite find_close_app by exact H.
  replace (2 + length body + 2)%nat with (length (lit "/*" ++ body ++ lit "*/"))
    by (rewrite !app_length; cbn; lia).
  replace (lit "/*" ++ body ++ lit "*/" ++ rest) with ((lit "/*" ++ body ++ lit "*/") ++ rest)
    by (rewrite <- !app_assoc; reflexivity).
  rewrite sfrom_app, sto_app. reflexivity.
Qed.
Lemma remark_unclosed body f p :
  ~ occurs (lit "*/") body ->
  ps_remark_c (Src (lit "/*" ++ body) f p) = Err (Exn SyntaxError "ps_remark_c: unclosed comment").
Proof.
  intros H. unfold ps_remark_c. unfold sstarts. cbn [s_txt].
  change (startswith (lit "//") (lit "/*" ++ body)) with false. rewrite startswith_app.
  change (skipn 2 (lit "/*" ++ body)) with body. rewrite find_close_none by exact H. reflexivity.
Qed.
Lemma remark_python body rest f p :
  Forall (fun c => ~ line_end c) body -> rest = [] \/ (exists c r, rest = c :: r /\ line_end c) ->
  ps_remark_python (Src (35 :: body ++ rest) f p)
  = (Src rest f (p + Z.of_nat (1 + length body)), Some (Src (35 :: body) f p)).
Proof.
  intros Hb Hr. unfold ps_remark_python. unfold sis. cbn [s_txt]. change (35 =? ch_hash) with true.
  cbn [skipn]. rewrite (span_len_app _ body rest).
  - change (35 :: body ++ rest) with ((35 :: body) ++ rest).
    change (1 + length body)%nat with (length (35 :: body)). rewrite sfrom_app, sto_app. reflexivity.
  - apply (forallb_Forall _ (fun c => ~ line_end c)); [|exact Hb].
    intros c. rewrite negb_true_iff. rewrite <- ps_EOL_spec. destruct (ps_EOL c); intuition congruence.
  - destruct Hr as [->|(c & r & -> & Hc)]; [exact I|]. apply ps_EOL_spec in Hc. rewrite Hc. reflexivity.
Qed.

(** ** C08 *)
Lemma identifier_no_close n : identifier n -> forall r f p, sis ch_close (Src (n ++ r) f p) = false.
Proof.
  destruct n as [|c n]; [intros []|]. intros [H _] r f p. unfold sis. cbn [s_txt app].
  unfold letter, ch_close in *. lia.
Qed.
Lemma identifier_not_white n r : identifier n -> stops_at white (n ++ r).
Proof.
  destruct n as [|c n]; [intros []|]. intros [H _]. cbn. unfold letter, white, blank, line_end in *. lia.
Qed.
Lemma white_not_name g r : Forall white g -> g <> [] -> stops_at name_char (g ++ r).
Proof.
  destruct g as [|c g]; [congruence|]. intros H _. apply Forall_inv in H. cbn.
  unfold name_char, letter, decimal_digit, white, blank, line_end in *. lia.
Qed.
Lemma params_ok_length ps : params_ok ps -> (length ps <= length (param_text ps))%nat.
Proof.
  induction ps as [|[n g] ps IH]; cbn [params_ok param_text length]; [lia|].
  intros (Hn & _ & _ & H). specialize (IH H). rewrite !app_length.
  destruct n; [destruct Hn|]. cbn [length]. lia.
Qed.
Lemma param_text_stops ps rest : params_ok ps -> stops_at white (param_text ps ++ 41 :: rest).
Proof.
  destruct ps as [|[n g] ps]; cbn [param_text params_ok].
  - intros _. cbn. unfold white, blank, line_end. lia.
  - intros (Hn & _). rewrite <- app_assoc. apply identifier_not_white, Hn.
Qed.
Lemma macro_pars_ok ps : forall n acc rest f p,
  params_ok ps -> (length ps < n)%nat ->
  exists l, macro_pars n acc (Src (param_text ps ++ 41 :: rest) f p)
    = Ok (Src rest f (p + Z.of_nat (length (param_text ps) + 1)), acc ++ l)
    /\ map s_txt l = map fst ps.
Proof.
  induction ps as [|[nm g] ps IH]; intros n acc rest f p Hok Hlen; destruct n as [|n]; try (cbn in Hlen; lia);
    cbn [macro_pars param_text].
  - cbn [app]. unfold sis. cbn [s_txt]. change (41 =? ch_close) with true. cbn iota.
    exists []. rewrite app_nil_r. split; [|reflexivity]. reflexivity.
  - cbn [params_ok] in Hok. destruct Hok as (Hn & Hg & Hsep & Hok).
    rewrite <- !app_assoc. rewrite identifier_no_close by exact Hn.
    assert (stops_at name_char (g ++ param_text ps ++ 41 :: rest)) as Hstop.
    { destruct Hsep as [->|Hne]; [|apply white_not_name; assumption].
      destruct g as [|c g]; [|apply white_not_name; [assumption|discriminate]].
      cbn. unfold name_char, letter, decimal_digit. lia. }
    rewrite (ps_atom_ident _ _ _ _ Hn Hstop).
    rewrite (gap_run g _ _ _ Hg (param_text_stops ps rest Hok)).
    cbn [length] in Hlen.
    destruct (IH n (acc ++ [Src nm f p]) rest f (p + Z.of_nat (length nm) + Z.of_nat (length g))%Z Hok)
      as (l & -> & Hl); [lia|].
    exists (Src nm f p :: l). split; [|cbn; f_equal; exact Hl].
    rewrite <- app_assoc. cbn [app]. f_equal. apply f_equal2; [|reflexivity]. apply src_pos.
    rewrite !app_length. lia.
Qed.

Lemma macro_ok g0 name g1 g2 ps body rest f p :
  Forall white g0 -> identifier name -> Forall white g1 -> Forall white g2 -> params_ok ps ->
  Forall permitted body -> balanced body ->
  let whole := lit "($macro" ++ g0 ++ name ++ g1 ++ 40 :: g2 ++ param_text ps ++ 41 :: body ++ [41] in
  exists nm l, ps_macro (Src (whole ++ rest) f p)
    = Ok (Src rest f (p + Z.of_nat (length whole)), Some (NMacro nm l body))
    /\ s_txt nm = name /\ map s_txt l = map fst ps.
Proof.
  intros H0 Hn H1 H2 Hps Hp Hb whole.
  assert (whole ++ rest = lit "($macro" ++ g0 ++ name ++ g1 ++ 40 :: g2 ++ param_text ps ++ 41 :: body ++ 41 :: rest) as E.
  { unfold whole. repeat (rewrite <- !app_assoc; cbn [app]). reflexivity. }
  rewrite E. unfold ps_macro. unfold sstarts. cbn [s_txt]. change ps_MACRO with (lit "($macro").
  rewrite startswith_app. cbn [negb].
  set (t := g0 ++ _). change (sfrom 7 (Src (lit "($macro" ++ t) f p)) with (Src t f (p + 7)).
  unfold t. rewrite gap_run; [|exact H0|apply identifier_not_white, Hn].
  rewrite ps_atom_ident; [|exact Hn|].
  2:{ destruct g1 as [|c g1]; [|apply white_not_name; [assumption|discriminate]].
      cbn. unfold name_char, letter, decimal_digit. lia. }
  rewrite gap_run; [|exact H1|cbn; unfold white, blank, line_end; lia].
  unfold sis at 1. cbn [s_txt]. change (40 =? ch_open) with true. cbn [negb].
  set (q := (p + 7 + Z.of_nat (length g0) + Z.of_nat (length name) + Z.of_nat (length g1))%Z).
  change (sfrom 1 (Src (40 :: g2 ++ param_text ps ++ 41 :: body ++ 41 :: rest) f q))
    with (Src (g2 ++ param_text ps ++ 41 :: body ++ 41 :: rest) f (q + 1)).
  rewrite gap_run; [|exact H2|apply param_text_stops, Hps].
  match goal with |- context [macro_pars ?n [] (Src _ _ ?q)] =>
    destruct (macro_pars_ok ps n [] (body ++ 41 :: rest) f q Hps) as (l & -> & Hl) end.
  { assert (L := params_ok_length ps Hps). cbn [length]. rewrite !app_length. lia. }
  cbn [app].
  assert (Hlen : (Z.of_nat (length whole) = 7 + Z.of_nat (length g0) + Z.of_nat (length name) + Z.of_nat (length g1)
     + 1 + Z.of_nat (length g2) + Z.of_nat (length (param_text ps)) + 1 + Z.of_nat (length body) + 1)%Z).
  { unfold whole. repeat (rewrite !app_length; cbn [length]). change (length (lit "($macro")) with 7%nat. lia. }
  destruct body as [|c body].
  - cbn [app]. unfold sis. cbn [s_txt]. change (41 =? ch_close) with true. cbn iota.
    eexists _, l. split; [|split; [|exact Hl]].
    { f_equal. apply f_equal2; [|reflexivity]. unfold sfrom. cbn [s_txt s_file s_pos skipn].
      apply src_pos. unfold q. cbn [length] in Hlen. lia. }
    reflexivity.
  - rewrite stops_balanced by (assumption || discriminate).
    match goal with |- context [plain_body (Src _ _ ?pp)] =>
      destruct (plain_body_ok (c :: body) rest f pp Hp Hb) as (g & -> & Hg & Hi); [discriminate|] end.
    rewrite Hg, Hi. cbn [s_txt]. rewrite firstn_length_app.
    eexists _, l. split; [|split; [|exact Hl]].
    { f_equal. apply f_equal2; [|reflexivity]. apply src_pos. unfold q. lia. }
    reflexivity.
Qed.
