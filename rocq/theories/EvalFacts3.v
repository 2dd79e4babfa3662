(** Text blocks, subscripts, emit (proofs only). *)
From Coq Require Import List NArith ZArith Bool String Lia ZifyBool ZifyNat ZifyN.
From Verif Require Import PyStr Ast Lex Parse Final Eval PyStrFacts EnvSpec EnvFacts EvalSpec EvalMono EvalKeep EvalPure EvalFacts EvalFacts2.
Import ListNotations.
Open Scope list_scope.

(** ** Indentation *)
Section Indent.
Local Open Scope N_scope.
Definition open_line (t : text) : list text := if ps_EOL (last t 0) then [[]] else [].
Lemma keep_some c r : exists l ls, splitlines_keep (c :: r) = l :: ls.
Proof.
  cbn [splitlines_keep]. destruct (py_isbreak c); [destruct (c =? 13); [destruct r as [|d r']; [|destruct (d =? 10)]|]|destruct (splitlines_keep r)]; eauto.
Qed.
Lemma join_more i a b (l : list text) : join i (a :: b :: l) = a ++ i ++ join i (b :: l).
Proof. reflexivity. Qed.
Lemma eol_break c : ps_EOL c = true -> py_isbreak c = true.
Proof. unfold ps_EOL, py_isbreak. lia. Qed.
Lemma behind_join i n : forall t, (List.length t <= n)%nat -> join i (splitlines_keep t ++ open_line t) = behind_lines i t.
Proof.
  induction n as [|n IH]; intros t Hn; [destruct t; [reflexivity|cbn [List.length] in Hn; lia]|].
  destruct t as [|c r]; [reflexivity|]. cbn [List.length] in Hn.
  assert (Hrest : forall d r', r = d :: r' -> exists l ls, splitlines_keep r ++ open_line (c :: r) = l :: ls /\ join i (l :: ls) = behind_lines i r).
  { intros d r' ->. destruct (keep_some d r') as (l & ls & E). exists l, (ls ++ open_line (d :: r')). rewrite E. split; [reflexivity|]. rewrite <- (IH (d :: r')) by lia. rewrite E. reflexivity. }
  cbn [splitlines_keep behind_lines]. destruct (py_isbreak c) eqn:Eb.
  - destruct (N.eqb_spec c 13) as [-> | Hc].
    + destruct r as [|d r']; [cbn; rewrite app_nil_r; reflexivity|]. destruct (N.eqb_spec d 10) as [-> | Hd].
      * cbn [andb negb app]. destruct r' as [|d' r2]; [reflexivity|]. cbn [app].
        destruct (keep_some d' r2) as (l & ls & E). rewrite E. change (open_line (13 :: 10 :: d' :: r2)) with (open_line (d' :: r2)).
        cbn [app]. rewrite join_more. cbn [app]. do 2 f_equal. change (l :: ls ++ open_line (d' :: r2)) with ((l :: ls) ++ open_line (d' :: r2)). rewrite <- E, IH by (cbn [List.length] in *; lia).
        reflexivity.
      * destruct (Hrest d r' eq_refl) as (l & ls & E1 & E2). cbn [app]. rewrite E1, join_more, E2. reflexivity.
    + destruct r as [|d r'].
      * cbn [splitlines_keep behind_lines app]. unfold open_line. cbn [last]. unfold ps_EOL. replace (c =? 13) with false by lia. rewrite orb_false_r. destruct (c =? 10); cbn; rewrite ?app_nil_r; reflexivity.
      * destruct (Hrest d r' eq_refl) as (l & ls & E1 & E2). cbn [app]. rewrite E1, join_more, E2. reflexivity.
  - destruct r as [|d r'].
    + cbn [splitlines_keep behind_lines app]. unfold open_line. cbn [last]. change ((c =? 10) || (c =? 13)) with (ps_EOL c). destruct (ps_EOL c) eqn:E; [rewrite (eol_break c E) in Eb; discriminate|reflexivity].
    + destruct (Hrest d r' eq_refl) as (l & ls & E1 & E2). destruct (keep_some d r') as (l0 & ls0 & E). rewrite E in *. cbn [app] in *. injection E1 as <- <-.
      cbn [andb app]. rewrite <- E2. destruct (ls0 ++ open_line (c :: d :: r')); reflexivity.
Qed.
Lemma set_in_add i x : set_in i x = add_indent i x.
Proof.
  destruct x; try reflexivity. cbn [set_in add_indent]. destruct i0; try reflexivity; change (?a ++ (if ps_EOL (last ?t 0) then [[]] else [])) with (a ++ open_line t); rewrite (behind_join i _ _ (le_n _)); reflexivity.
Qed.
Lemma indented_map ind l : indented ind l = match ind with IndStr (c :: i) => map (add_indent (c :: i)) l | _ => l end.
Proof. destruct ind as [|[|c i]|]; try reflexivity. cbn [indented]. apply map_ext. intros x. apply set_in_add. Qed.
End Indent.

(** ** The end of the current module *)
Fixpoint scan (k : nat) (r : list node) : option (list node) :=
  match r with
  | [] => None
  | x :: l => match x with
              | NImportBegin => scan (S k) l
              | NImportEnd => match k with O => Some l | S k' => scan k' l end
              | _ => scan k l
              end
  end.
Lemma scan_complete m : complete m -> forall k r, scan k (m ++ r) = scan k r.
Proof.
  induction 1 as [|x l Hb He Hl IH|m l Hm IHm Hl IHl]; intros k r; [reflexivity| |].
  - cbn [app scan]. destruct x; try (apply IH); congruence.
  - cbn [app scan]. rewrite <- app_assoc, IHm. cbn [app scan]. apply IHl.
Qed.
Lemma scan_closed n : forall r l, (List.length r <= n)%nat -> scan 0 r = Some l -> exists m, complete m /\ r = m ++ NImportEnd :: l.
Proof.
  assert (Hgen : forall n k r l, (List.length r <= n)%nat -> scan k r = Some l ->
     exists ms m, List.length ms = k /\ Forall complete ms /\ complete m /\
       r = List.concat (map (fun c => c ++ [NImportEnd]) ms) ++ m ++ NImportEnd :: l).
  { clear. induction n as [|n IH]; intros k r l Hn Hs.
    { destruct r; [discriminate Hs|cbn in Hn; lia]. }
    destruct r as [|x r]; [discriminate Hs|]. cbn [List.length] in Hn.
    assert (Hother : x <> NImportBegin -> x <> NImportEnd -> scan k r = Some l ->
      exists ms m, List.length ms = k /\ Forall complete ms /\ complete m /\
       x :: r = List.concat (map (fun c => c ++ [NImportEnd]) ms) ++ m ++ NImportEnd :: l).
    { intros Hb He Hs'. destruct (IH k r l ltac:(lia) Hs') as (ms & m & Hk & Hms & Hm & ->).
      destruct ms as [|c ms].
      - exists [], (x :: m). cbn [map List.concat app]. repeat split; auto. constructor; assumption.
      - exists ((x :: c) :: ms), m. inversion Hms; subst. repeat split; auto. constructor; [constructor|]; assumption. }
    destruct x; try (apply Hother; [discriminate|discriminate|exact Hs]).
    - cbn [scan] in Hs. destruct (IH (S k) r l ltac:(lia) Hs) as (ms & m & Hk & Hms & Hm & ->).
      destruct ms as [|c ms]; [discriminate Hk|]. inversion Hms as [|? ? Hc Hms']; subst.
      cbn [List.length] in Hk. injection Hk as Hk. cbn [map List.concat].
      destruct ms as [|c2 ms].
      + exists [], (NImportBegin :: c ++ NImportEnd :: m). cbn [map List.concat app]. repeat split; auto.
        * apply CO_import; assumption.
        * rewrite <- !app_assoc. reflexivity.
      + inversion Hms' as [|? ? Hc2 Hms'']; subst.
        exists ((NImportBegin :: c ++ NImportEnd :: c2) :: ms), m. repeat split; auto.
        * constructor; [apply CO_import; assumption|assumption].
        * cbn [map List.concat app]. rewrite <- !app_assoc. cbn [app]. try rewrite <- !app_assoc. reflexivity.
    - cbn [scan] in Hs. destruct k as [|k].
      + injection Hs as ->. exists [], []. cbn. repeat split; auto. constructor.
      + destruct (IH k r l ltac:(lia) Hs) as (ms & m & Hk & Hms & Hm & ->).
        exists ([] :: ms), m. cbn [List.length map List.concat app]. repeat split; auto. constructor; [constructor|assumption]. }
  intros r l Hn Hs. destruct (Hgen n O r l Hn Hs) as (ms & m & Hk & _ & Hm & ->).
  destruct ms; [|discriminate Hk]. eauto.
Qed.
Lemma scan_none r : scan 0 r = None <-> never_closed r.
Proof.
  split.
  - intros H m l -> Hm. rewrite scan_complete in H by exact Hm. discriminate H.
  - intros H. destruct (scan 0 r) as [l|] eqn:Es; [|reflexivity].
    destruct (scan_closed (List.length r) r l (le_n _) Es) as (m & Hm & Hr). destruct (H m l Hr Hm).
Qed.
Lemma t_loop_scan self r : forall k mark ind t e s,
  t_loop self mark ind (S k) t r e s =
  match scan k r with Some l => t_loop self false ind O t l e s | None => Ok (t, e, s) end.
Proof.
  induction r as [|x r IH]; intros k mark ind t e s; [reflexivity|]. rewrite t_loop_skip.
  destruct x; cbn [scan]; try apply IH. destruct k; [reflexivity|apply IH].
Qed.
Lemma mark_next_spec ind rest : mark_next ind rest = trimmed_next ind rest.
Proof. destruct rest as [|y r]; [destruct ind; reflexivity|]. destruct ind; destruct y; reflexivity. Qed.
Lemma t_loop_trimmed self ind t rest :
  t_loop self (is_ind_str ind && match rest with y :: _ => is_plain y | [] => false end) ind O t rest =
  t_loop self false ind O t (trimmed_next ind rest).
Proof.
  destruct rest as [|y r]; [destruct ind; reflexivity|].
  destruct ind; cbn [is_ind_str andb trimmed_next]; try reflexivity.
  destruct y; cbn [is_plain]; try reflexivity.
Qed.

Section Facts.
Variables (ec : ectx) (parse : text -> M (list node)).
Notation ev := (yueval ec parse).
Notation fin := (finishes ec parse).
Notation evs := (evals ec parse).

Lemma rises_t_loop mark ind k t items : rises (fun n => t_loop (ev n) mark ind k t items).
Proof. intros i j H. apply t_loop_mono. intros x. apply rises_ev, H. Qed.
Lemma rises_t_after ind xi xa t rest v : rises (fun n => t_after (ev n) ind xi xa t rest v).
Proof.
  intros i j H. pose proof (fun x => rises_ev ec parse x i j H) as Hs. unfold t_after.
  destruct v; try (apply t_loop_mono; exact Hs).
  - destruct v; try (apply t_loop_mono; exact Hs). apply le_bind; [apply Hs|intros; apply le_refl].
  - destruct rest; [apply le_refl|]. apply le_bind; [apply Hs|intros; apply le_refl].
Qed.
Lemma comment_dec x : is_comment x = false <-> x <> NComment.
Proof. destruct x; cbn; split; congruence. Qed.

Lemma block_sound n : forall items, (List.length items <= n)%nat -> forall ind t e s w e' s',
  gives_r (fun n => t_loop (ev n) false ind O t items) e s (Ok (w, e', s')) ->
  exists w', w = t ++ w' /\ block ec parse ind items e s w' e' s'.
Proof.
  induction n as [|n IH]; intros items Hn ind t e s w e' s' H.
  { destruct items; [|cbn in Hn; lia]. cbn [t_loop] in H. apply gives_ret in H. injection H as -> -> ->.
    exists []. rewrite app_nil_r. split; [reflexivity|constructor]. }
  destruct items as [|x rest].
  { cbn [t_loop] in H. apply gives_ret in H. injection H as -> -> ->.
    exists []. rewrite app_nil_r. split; [reflexivity|constructor]. }
  cbn [List.length] in Hn.
  destruct (is_comment x) eqn:Ec.
  { destruct x; try discriminate Ec.
    rewrite (gives_ext _ (fun n => t_loop (ev n) false ind O t (trimmed_next ind rest))) in H.
    2: { intros m. rewrite t_loop_comment, t_loop_trimmed. reflexivity. }
    apply IH in H; [|rewrite <- mark_next_spec; destruct rest as [|y r]; cbn [mark_next List.length] in *; [lia|];
                    destruct (_ && _); cbn [List.length]; lia].
    destruct H as (w' & -> & H). exists w'. split; [reflexivity|]. apply BL_comment, H. }
  pose proof (proj1 (comment_dec x) Ec) as Hx.
  rewrite (gives_ext _ (fun n => ebind (ev n x) (fun v => t_after (ev n) ind (indent_after ind x) (is_apply x) t rest v))) in H.
  2: { intros m. rewrite t_loop_item by exact Ec. reflexivity. }
  apply (gives_bind_inv (fun n => ev n x) (fun n v => t_after (ev n) ind (indent_after ind x) (is_apply x) t rest v)) in H
    as (v & e1 & s1 & H1 & H2).
  apply evals_fin in H1.
  assert (Hval : forall p, piece v p ->
    gives_r (fun n => t_loop (ev n) false (indent_after ind x) O (t ++ [if is_apply x then NTrim p (ind_text ind) else p]) rest)
      e1 s1 (Ok (w, e', s')) -> exists w', w = t ++ w' /\ block ec parse ind (x :: rest) e s w' e' s').
  { intros p Hp H. apply IH in H as (w' & -> & H); [|lia].
    exists ((if is_apply x then NTrim p (ind_text ind) else p) :: w'). rewrite <- app_assoc. split; [reflexivity|].
    replace (if is_apply x then NTrim p (ind_text ind) else p) with (as_applied ind x p) by (destruct x; reflexivity).
    eapply BL_value; eassumption. }
  assert (Hnone : v = NNone \/ v = NImportBegin \/ v = NImportEnd ->
    gives_r (fun n => t_loop (ev n) false ind O t rest)
      e1 s1 (Ok (w, e', s')) -> exists w', w = t ++ w' /\ block ec parse ind (x :: rest) e s w' e' s').
  { intros Hp H. apply IH in H as (w' & -> & H); [|lia].
    exists w'. split; [reflexivity|]. eapply BL_nothing; eassumption. }
  destruct v; try (eapply Hval; [apply PC_value; exact I|exact H2]); try (apply Hnone; [auto|exact H2]).
  - destruct v; try (eapply Hval; [apply PC_embed; exact I|exact H2]).
    unfold t_after in H2. rewrite <- indented_map in H2.
    apply (gives_bind_inv (fun n => ev n (NT (indented ind l ++ rest) ind)) (fun _ tail =>
      eret (match list_of tail with Some l => t ++ l | None => t ++ [tail] end))) in H2 as (q & e2 & s2 & H2 & H3).
    apply gives_ret in H3. injection H3 as -> -> ->. exists (pieces_of q).
    split; [unfold pieces_of; destruct (list_of q); reflexivity|].
    eapply BL_embed; [exact Hx|exact H1|]. apply evals_fin. exact H2.
  - unfold t_after in H2. destruct rest as [|y rest].
    + assert (H3 : gives_r (fun _ => eret t) e1 (warn "useless assign" s1) (Ok (w, e', s'))) by exact H2.
      apply gives_ret in H3. injection H3 as -> -> ->. exists []. rewrite app_nil_r. split; [reflexivity|].
      eapply BL_scope_end; eassumption.
    + apply (gives_bind_inv (fun n => ev n (NSetClosure (NT (mark_next ind (y :: rest)) ind) env)) (fun _ v => eret (t ++ [v])))
        in H2 as (q & e2 & s2 & H2 & H3).
      apply gives_ret in H3. injection H3 as -> -> ->. exists [q]. split; [reflexivity|].
      rewrite mark_next_spec in H2. eapply BL_scope; [exact Hx|exact H1|]. apply evals_fin. exact H2.
  - unfold t_after in H2.
    rewrite (gives_ext _ (fun n => fun e s => match scan 0 rest with Some l => t_loop (ev n) false ind O t l e s | None => Ok (t, e, s) end)) in H2
      by (intros m; apply t_loop_scan).
    destruct (scan 0 rest) as [l|] eqn:Es.
    + destruct (scan_closed _ rest l (le_n _) Es) as (m & Hm & ->).
      assert (H3 : gives_r (fun n => t_loop (ev n) false ind O t l) e1 s1 (Ok (w, e', s'))) by exact H2.
      apply IH in H3 as (w' & -> & H3); [|rewrite app_length in Hn; cbn [List.length] in Hn; lia].
      exists w'. split; [reflexivity|]. eapply BL_skip; eassumption.
    + assert (H3 : gives_r (fun _ => eret t) e1 s1 (Ok (w, e', s'))) by exact H2.
      apply gives_ret in H3. injection H3 as -> -> ->. exists []. rewrite app_nil_r. split; [reflexivity|].
      apply scan_none in Es. eapply BL_skip_all; eassumption.
Qed.

Lemma block_complete ind items e s w e' s' : block ec parse ind items e s w e' s' -> forall t,
  gives_r (fun n => t_loop (ev n) false ind O t items) e s (Ok (t ++ w, e', s')).
Proof.
  assert (Hstep : forall ind x rest e s v e1 s1 t r, x <> NComment -> evs x e s v e1 s1 ->
    gives_r (fun n => t_after (ev n) ind (indent_after ind x) (is_apply x) t rest v) e1 s1 r ->
    gives_r (fun n => t_loop (ev n) false ind O t (x :: rest)) e s r).
  { intros ind0 x rest e0 s0 v e1 s1 t r Hx Hv H. apply comment_dec in Hx.
    apply (gives_ext _ (fun n => ebind (ev n x) (fun v => t_after (ev n) ind0 (indent_after ind0 x) (is_apply x) t rest v))).
    { intros m. rewrite t_loop_item by exact Hx. reflexivity. }
    apply (gives_bind (fun n => ev n x) (fun n v => t_after (ev n) ind0 (indent_after ind0 x) (is_apply x) t rest v) e0 s0 v e1 s1).
    - apply rises_ev.
    - intros a. apply rises_t_after.
    - apply evals_fin, Hv.
    - exact H. }
  induction 1 as [ind e s|ind rest e s w e' s' H IH|ind x rest e s v e1 s1 w e' s' Hx Hv Hn H IH
                 |ind x m l e s e1 s1 w e' s' Hx Hv Hm H IH|ind x r e s e1 s1 Hx Hv Hc
                 |ind x y rest e s f e1 s1 v e' s' Hx Hv Hw|ind x e s f e1 s1 Hx Hv
                 |ind x rest e s l i e1 s1 v e' s' Hx Hv Hw|ind x rest e s v e1 s1 p w e' s' Hx Hv Hp H IH]; intros t.
  - cbn [t_loop]. rewrite app_nil_r. apply gives_ret. reflexivity.
  - apply (gives_ext _ (fun n => t_loop (ev n) false ind O t (trimmed_next ind rest))).
    { intros m. rewrite t_loop_comment, t_loop_trimmed. reflexivity. } apply IH.
  - apply (Hstep _ _ _ _ _ _ _ _ _ _ Hx Hv). unfold t_after. destruct Hn as [->|[->| ->]]; apply IH.
  - apply (Hstep _ _ _ _ _ _ _ _ _ _ Hx Hv). unfold t_after.
    apply (gives_ext _ (fun n => t_loop (ev n) false ind O t l)); [|apply IH].
    intros k. rewrite t_loop_scan, scan_complete by exact Hm. reflexivity.
  - apply (Hstep _ _ _ _ _ _ _ _ _ _ Hx Hv). unfold t_after.
    apply (gives_ext _ (fun n => eret t)); [|apply gives_ret; rewrite app_nil_r; reflexivity].
    intros k. rewrite t_loop_scan. apply scan_none in Hc. rewrite Hc. reflexivity.
  - apply (Hstep _ _ _ _ _ _ _ _ _ _ Hx Hv). unfold t_after. rewrite mark_next_spec.
    apply (gives_bind (fun n => ev n (NSetClosure (NT (trimmed_next ind (y :: rest)) ind) f)) (fun _ v => eret (t ++ [v])) e1 s1 v e' s').
    { apply rises_ev. } { intros b. apply rises_const. } { apply evals_fin, Hw. } apply gives_ret. reflexivity.
  - apply (Hstep _ _ _ _ _ _ _ _ _ _ Hx Hv). unfold t_after.
    change (gives_r (fun _ => eret t) e1 (warn "useless assign" s1) (Ok (t ++ [], e1, warn "useless assign" s1))).
    rewrite app_nil_r. apply gives_ret. reflexivity.
  - apply (Hstep _ _ _ _ _ _ _ _ _ _ Hx Hv). unfold t_after. rewrite <- indented_map.
    apply (gives_bind (fun n => ev n (NT (indented ind l ++ rest) ind)) (fun _ tail =>
      eret (match list_of tail with Some l => t ++ l | None => t ++ [tail] end)) e1 s1 v e' s').
    { apply rises_ev. } { intros b. apply rises_const. } { apply evals_fin, Hw. } apply gives_ret.
    unfold pieces_of. destruct (list_of v); reflexivity.
  - apply (Hstep _ _ _ _ _ _ _ _ _ _ Hx Hv).
    assert (Hp' : gives_r (fun n => t_loop (ev n) false (indent_after ind x) O
       (t ++ [if is_apply x then NTrim p (ind_text ind) else p]) rest) e1 s1 (Ok (t ++ as_applied ind x p :: w, e', s'))).
    { specialize (IH (t ++ [if is_apply x then NTrim p (ind_text ind) else p])). rewrite <- app_assoc in IH.
      replace (as_applied ind x p) with (if is_apply x then NTrim p (ind_text ind) else p) by (destruct x; reflexivity). exact IH. }
    unfold t_after. destruct Hp as [v Hk|v Hk]; [destruct v; try contradiction Hk; exact Hp'|].
    destruct v; try contradiction Hk; exact Hp'.
Qed.
Lemma block_spec ind items e s w e' s' :
  gives_r (fun n => t_loop (ev n) false ind O [] items) e s (Ok (w, e', s')) <-> block ec parse ind items e s w e' s'.
Proof.
  split; intros H.
  - apply (block_sound (List.length items)) in H as (w' & -> & H); [exact H|lia].
  - apply (block_complete _ _ _ _ _ _ _ H []).
Qed.
(** a text block evaluates to its plain text once all pieces are known *)
Lemma text_spec items ind e s v e' s' :
  e_browse ec = false ->
  evs (NT items ind) e s v e' s' <->
  exists w, block ec parse ind items e s w e' s' /\
    v = if is_term (NT w ind) then NRaw (plain ec (NT w ind)) else NT w ind.
Proof.
  intros Hb. rewrite evals_fin, fin_body. cbn [eval_body]. unfold eval_T. rewrite Hb.
  set (k := fun (_ : nat) (t : list node) => if is_term (NT t ind) then eret (NRaw (plain ec (NT t ind))) else eret (NT t ind)).
  change (gives_r (fun n => ebind (t_loop (ev n) false ind O [] items) (k n)) e s (Ok (v, e', s')) <->
    exists w, block ec parse ind items e s w e' s' /\
    v = if is_term (NT w ind) then NRaw (plain ec (NT w ind)) else NT w ind).
  split.
  - intros H. apply gives_bind_inv in H as (w & e1 & s1 & H1 & H2). apply block_spec in H1.
    unfold k in H2. exists w.
    destruct (is_term (NT w ind)); apply gives_ret in H2; injection H2 as -> -> ->; auto.
  - intros (w & H & Hv).
    apply (gives_bind (fun n => t_loop (ev n) false ind O [] items) k e s w e' s').
    { apply rises_t_loop. } { intros b. unfold k. apply rises_const. } { apply block_spec, H. }
    unfold k. subst v. destruct (is_term (NT w ind)); apply gives_ret; reflexivity.
Qed.
End Facts.
