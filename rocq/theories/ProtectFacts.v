(** * Comments and literals protect what is in them *)
From Coq Require Import List NArith ZArith Bool Lia ZifyBool ZifyNat ZifyN.
From Verif Require Import PyStr PyStrFacts Ast Lex LexSpec LexFacts LexFacts2 Parse ParseSpec ParseFacts ParseFacts2 ParseFacts3 Final Eval EnvSpec EnvFacts PpSpec PpFacts ProtectSpec PyLitFacts.
Import ListNotations.
Open Scope N_scope.
Open Scope monad_scope.

Lemma begins_starts p t : startswith p t = true <-> begins p t.
Proof. apply startswith_spec. Qed.
Lemma not_begins p s : ~ begins p (s_txt s) -> sstarts p s = false.
Proof. intros H. unfold sstarts. destruct (startswith p (s_txt s)) eqn:E; [|reflexivity]. apply begins_starts in E. contradiction. Qed.
Lemma not_begins_app p q s : ~ begins p (s_txt s) -> sstarts (p ++ q) s = false.
Proof. intros H. apply not_begins. intros [r E]. apply H. exists (q ++ r). rewrite E, app_assoc. reflexivity. Qed.

Lemma literal_tail q body r : q <> 92 -> literal_inside q body -> c_literal_tail q (body ++ q :: r) = Some (S (length body)).
Proof.
  intros Q H. induction H as [|c b Hc Hb H IH|c b Hc H IH]; cbn [app c_literal_tail].
  - rewrite N.eqb_refl. reflexivity.
  - replace (c =? q) with false by lia. replace (c =? ch_bslash) with false by (unfold ch_bslash; lia). rewrite IH. reflexivity.
  - replace (92 =? q) with false by lia. change (92 =? ch_bslash) with true. cbv iota. replace (c =? 10) with false by lia. rewrite IH. reflexivity.
Qed.

Lemma unclosed_head m t c r : unclosed m t -> t = c :: r -> c = 47.
Proof. intros [_ (b & -> & _)] E. change (47 :: 42 :: b = c :: r) in E. congruence. Qed.
Lemma comment_head m cm r' c r : target_comment m cm r' -> cm ++ r' = c :: r -> c = 47 \/ c = 35.
Proof.
  intros [b x _ _|b x _|b x _ _] E.
  - change (47 :: 47 :: b ++ x = c :: r) in E. left. congruence.
  - change (47 :: 42 :: (b ++ lit "*/") ++ x = c :: r) in E. left. congruence.
  - change (35 :: b ++ x = c :: r) in E. right. congruence.
Qed.

Lemma string_begins_head c r : string_begins (c :: r) -> c = 34 \/ c = 39 \/ c = 117 \/ c = 85 \/ c = 114 \/ c = 82.
Proof. intros (p & q & x & P & Q & E). unfold string_quote in Q. destruct P; cbn [app] in E; injection E as E _; lia. Qed.

Section Protect.
Variables (cx : pctx) (imp : text -> M (list node)) (tail : text).
Notation prot := (protected (c_python cx) (c_skip cx) tail).
Hypothesis Htail : tail = [] \/ unclosed (c_skip cx) tail.

(** what one step does *)
Definition step_result (sou : source) (s : yst) (r : res (source * option (list node) * yst)) : Prop :=
  match r with
  | Ok (sou', None, s') => sou' = sou /\ s' = s /\ match s_txt sou with [] => tail = [] | c :: r => permitted c /\ prot r end
  | Ok (sou', Some l, s') => s' = s /\ exists x w, l = [x] /\ piece_of_text x w /\ w <> [] /\ s_txt sou = w ++ s_txt sou' /\ prot (s_txt sou')
  | Err _ => tail <> []
  | Fuel => False
  end.

Definition remark_step (sou : source) : M (source * option (list node)) :=
  match c_skip cx with
  | SkipC => let* r := lift (ps_remark_c sou) in ret (fst r, option_map (fun x => [x]) (snd r))
  | SkipPython =>
      let '(sou, leg) := ps_remark_python sou in
      ret (sou, option_map (fun s => [NRemark s]) leg)
  | SkipNone => ret (sou, None)
  end.
Lemma item_reaches_quote k sou : ~ begins (lit "($") (s_txt sou) -> forall s,
  text_item cx imp k sou s =
  bind (lift (ps_quote (c_python cx) sou))
       (fun r => match snd r with Some x => ret (fst r, Some [x]) | None => remark_step (fst r) end) s.
Proof.
  intros N s. unfold text_item.
  assert (X : forall q, sstarts (lit "($" ++ q) sou = false) by (intros q; apply not_begins_app, N).
  assert (E1 : ps_set k sou = ret (sou, None)) by (unfold ps_set; rewrite (X (lit "set") : sstarts ps_SET sou = false); reflexivity).
  assert (E2 : ps_let k sou = ret (sou, None)) by (unfold ps_let; rewrite (X (lit "let") : sstarts ps_LET sou = false); reflexivity).
  assert (E3 : ps_import cx imp k sou = ret (sou, None)) by (unfold ps_import; rewrite (X (lit "import") : sstarts ps_IMPORT sou = false); reflexivity).
  assert (E4 : ps_macro sou = Ok (sou, None)) by (unfold ps_macro; rewrite (X (lit "macro") : sstarts ps_MACRO sou = false); reflexivity).
  assert (E5 : ps_comment sou = Ok (sou, None)) by (unfold ps_comment; rewrite (X (lit "!") : sstarts ps_COMMENT sou = false); reflexivity).
  assert (E6 : ps_application k sou = ret (sou, None)) by (unfold ps_application; rewrite (X [] : sstarts (lit "($") sou = false); reflexivity).
  rewrite E1. unfold bind at 1, ret at 1. cbv beta iota. rewrite E2. unfold bind at 1, ret at 1. cbv beta iota.
  rewrite E3. unfold bind at 1, ret at 1. cbv beta iota. rewrite E4. unfold bind at 1, lift at 1. cbv beta iota.
  rewrite E5. unfold bind at 1, lift at 1. cbv beta iota. rewrite E6. unfold bind at 1, ret at 1. cbv beta iota.
  unfold bind. destruct (lift (ps_quote (c_python cx) sou) s) as [[[sou' [x|]] s']|e|]; reflexivity.
Qed.
Lemma no_quote sou : (c_python cx = true -> ~ string_begins (s_txt sou)) -> ~ begins (lit "($") (s_txt sou) -> ~ begins (lit "(`") (s_txt sou) ->
  match s_txt sou with c :: _ => c <> 34 /\ c <> 39 | [] => True end -> ps_quote (c_python cx) sou = Ok (sou, None).
Proof.
  intros P N1 N2 Q.
  assert (B : ps_backquote sou = Ok (sou, None)).
  { unfold ps_backquote. change ps_BQUOTE with (lit "(`"). rewrite (not_begins _ _ N2).
    change ps_QUOTE with (lit "($" ++ lit "quote"). rewrite (not_begins_app _ _ _ N1). reflexivity. }
  unfold ps_quote. destruct (c_python cx) eqn:Py.
  - unfold ps_string_python. rewrite (no_string _ (P eq_refl)). exact B.
  - unfold c_literal, ch_dquote, ch_squote. destruct (s_txt sou) as [|c r]; [exact B|].
    replace (c =? 34) with false by lia. replace (c =? 39) with false by lia. exact B.
Qed.

Lemma begins_cons a b r c t : begins (a :: b :: r) (c :: t) -> c = a.
Proof. intros [x [= -> _]]. reflexivity. Qed.

Lemma step_ok k sou s : prot (s_txt sou) -> step_result sou s (text_item cx imp k sou s).
Proof.
  intros P. destruct sou as [t f p]. cbn [s_txt] in P.
  assert (G : forall n1 n2 : Prop, n1 -> n2 -> n1 /\ n2) by auto.
  destruct P as [|c r Pc N1 N2 B1 B2 K Z H|q body r Py Q L H|w r Py L H|cm r T H].
  - (* tail *)
    pose proof Htail as [E|[M (b & E & O)]]; rewrite E.
    + assert (N : forall u v, ~ begins (u :: v) []) by (intros u v [x X]; discriminate).
      rewrite item_reaches_quote by apply N. rewrite no_quote; cbn [s_txt]; try apply N; [|intros _ (p' & q' & r' & _ & _ & X); destruct p'; discriminate|exact I].
      unfold bind at 1, lift, remark_step. cbn [fst snd]. unfold step_result. destruct (c_skip cx); cbn; auto.
    + assert (N : forall v, ~ begins (40 :: v) (lit "/*" ++ b)) by (intros v [x X]; discriminate).
      rewrite item_reaches_quote by apply N. rewrite no_quote; cbn [s_txt]; try apply N; [|intros _ X; change (string_begins (47 :: 42 :: b)) in X; apply string_begins_head in X; lia|split; discriminate].
      unfold bind at 1, lift at 1, remark_step. cbn [fst snd]. rewrite M. unfold bind, lift. rewrite remark_unclosed by exact O. cbn. rewrite E. discriminate.
  - (* an ordinary character *)
    rewrite item_reaches_quote by exact B1. rewrite no_quote; [|exact Z|exact B1|exact B2|cbn; lia].
    unfold bind at 1, lift at 1, remark_step. cbn [fst snd].
    assert (D : step_result (Src (c :: r) f p) s (Ok (Src (c :: r) f p, None, s))) by (cbn; auto).
    destruct (c_skip cx) eqn:M; cbn [comment_begins] in K.
    + exact D.
    + unfold ps_remark_c. rewrite !not_begins by (cbn [s_txt]; tauto). exact D.
    + unfold ps_remark_python, sis. cbn [s_txt]. replace (c =? ch_hash) with false; [exact D|].
      destruct (N.eqb_spec c ch_hash) as [->|]; [|reflexivity]. exfalso. apply K. exists r. reflexivity.
  - (* a literal *)
    assert (N : ~ begins (lit "($") (q :: body ++ q :: r)) by (intros [x X]; change (q :: body ++ q :: r = 40 :: 36 :: x) in X; injection X as X _; lia).
    rewrite item_reaches_quote by exact N. rewrite Py. unfold ps_quote. cbn [s_txt].
    assert (Lt : c_literal_tail q (body ++ q :: r) = Some (Datatypes.S (length body))) by (apply literal_tail; [lia|exact L]).
    assert (Fr : forall g : source -> node, (forall t f p, piece_of_text (g (Src t f p)) t) ->
      step_result (Src (q :: body ++ q :: r) f p) s (Ok (sfrom (Datatypes.S (Datatypes.S (length body))) (Src (q :: body ++ q :: r) f p),
                  Some [g (sto (Datatypes.S (Datatypes.S (length body))) (Src (q :: body ++ q :: r) f p))], s))).
    { intros g Hg. replace (q :: body ++ q :: r) with ((q :: body ++ [q]) ++ r) by (cbn; rewrite <- app_assoc; reflexivity).
      replace (Datatypes.S (Datatypes.S (length body))) with (length (q :: body ++ [q])) by (cbn; rewrite app_length; cbn; lia).
      rewrite sfrom_app, sto_app. cbn [step_result s_txt]. split; [reflexivity|].
      eexists _, (q :: body ++ [q]). split; [reflexivity|]. split; [apply Hg|]. split; [discriminate|]. split; [reflexivity|exact H]. }
    destruct Q as [-> | ->].
    + change (c_literal ch_dquote (34 :: body ++ 34 :: r)) with (option_map Datatypes.S (c_literal_tail 34 (body ++ 34 :: r))). rewrite Lt. cbn [option_map].
      unfold bind, lift. cbn [fst snd]. unfold ret. apply (Fr (fun s => NStr (raw (s_txt s)))). intros; constructor.
    + change (c_literal ch_dquote (39 :: body ++ 39 :: r)) with (@None nat). cbv iota.
      change (c_literal ch_squote (39 :: body ++ 39 :: r)) with (option_map Datatypes.S (c_literal_tail 39 (body ++ 39 :: r))). rewrite Lt. cbn [option_map].
      unfold bind, lift. cbn [fst snd]. unfold ret. apply (Fr (fun s => NStr (raw (s_txt s)))). intros; constructor.
  - (* a literal of Python *)
    destruct (literal_head w r L) as (c & x & Ew & Hc).
    assert (N : ~ begins (lit "($") (w ++ r)) by (intros [y X]; rewrite Ew in X; change (c :: x ++ r = 40 :: 36 :: y) in X; injection X as X _; lia).
    rewrite item_reaches_quote by exact N. rewrite Py. unfold ps_quote, ps_string_python. cbn [s_txt]. rewrite (python_string w r L).
    unfold bind, lift. cbn [fst snd]. unfold ret. rewrite sfrom_app, sto_app. cbn [step_result s_txt]. split; [reflexivity|].
    eexists _, w. split; [reflexivity|]. split; [constructor|]. split; [rewrite Ew; discriminate|]. split; [reflexivity|exact H].
  - (* a comment *)
    assert (Hd : forall c r', cm ++ r = c :: r' -> c = 47 \/ c = 35) by (intros c r'; apply (comment_head _ _ _ _ _ T)).
    assert (N : forall v, ~ begins (40 :: v) (cm ++ r)).
    { intros v [x X]. apply Hd in X. lia. }
    rewrite item_reaches_quote by apply N.
    rewrite no_quote; cbn [s_txt]; try apply N; [|intros _ X; destruct (cm ++ r) as [|c r'] eqn:E; [destruct X as (p' & q' & r' & _ & _ & X); destruct p'; discriminate|apply string_begins_head in X; specialize (Hd c r' eq_refl); lia]|destruct (cm ++ r) as [|c r'] eqn:E; [exact I|specialize (Hd c r' eq_refl); lia]].
    unfold bind at 1, lift at 1, remark_step. cbn [fst snd].
    assert (D : forall p' n, cm <> [] -> piece_of_text n cm -> step_result (Src (cm ++ r) f p) s (Ok (Src r f p', Some [n], s))).
    { intros p' n C Pn. cbn [step_result s_txt]. split; [reflexivity|]. exists n, cm. repeat (split; [auto|]). exact H. }
    clear Hd N. inversion T as [b x Fb R Em Ec Er|b x O Em Ec Er|b x Fb R Em Ec Er]; subst cm x.
    + unfold bind, lift. rewrite <- app_assoc, remark_line by assumption. cbn [fst snd option_map]. unfold ret. rewrite app_assoc.
      apply D; [discriminate|constructor].
    + unfold bind, lift. rewrite <- !app_assoc, remark_block by assumption. cbn [fst snd option_map]. unfold ret.
      replace (lit "/*" ++ b ++ lit "*/" ++ r) with ((lit "/*" ++ b ++ lit "*/") ++ r) by (rewrite <- !app_assoc; reflexivity).
      apply D; [discriminate|constructor].
    + change ((35 :: b) ++ r) with (35 :: b ++ r). rewrite remark_python by assumption. cbn [option_map]. unfold ret.
      apply (D _ (NRemark (Src (35 :: b) f p))); [discriminate|constructor].
Qed.

Lemma items_prot k m : forall ast sou s, prot (s_txt sou) -> (length (s_txt sou) < m)%nat ->
  match text_items cx imp m k ast sou s with
  | Ok (sou', ast', s') => s' = s /\ (exists extra w, ast' = ast ++ extra /\ spells extra w /\ s_txt sou = w ++ s_txt sou' /\
                             (w = [] -> extra = [])) /\ match s_txt sou' with [] => tail = [] | c :: r => permitted c /\ prot r end
  | Err _ => tail <> []
  | Fuel => False
  end.
Proof.
  induction m as [|m IH]; intros ast sou s N Lm; [lia|]. cbn [text_items]. unfold bind.
  pose proof (step_ok k sou s N) as H. unfold step_result in H.
  destruct (text_item cx imp k sou s) as [[[sou' [l|]] s']|e|].
  - destruct H as [-> (x & w & -> & P & W & T & N')]. specialize (IH (ast ++ [x]) sou' s N').
    rewrite T in Lm. rewrite app_length in Lm. assert (length w <> O) by (destruct w; [congruence|discriminate]).
    specialize (IH ltac:(lia)).
    destruct (text_items cx imp m k (ast ++ [x]) sou' s) as [[[sou2 ast2] s2]|e|].
    + destruct IH as [-> [(extra & w2 & -> & S & T2 & _) R]]. split; [reflexivity|]. split; [|exact R].
      exists (x :: extra), (w ++ w2). split; [rewrite <- app_assoc; reflexivity|]. split; [constructor; assumption|].
      split; [rewrite T, T2, app_assoc; reflexivity|]. destruct w; [congruence|discriminate].
    + exact IH.
    + exact IH.
  - destruct H as [-> [-> R]]. cbn. split; [reflexivity|]. split; [|exact R]. exists [], []. rewrite app_nil_r. auto using sp_nil.
  - exact H.
  - contradiction.
Qed.

Definition at_char (t : text) : Prop := match t with [] => tail = [] | c :: r => permitted c /\ prot r end.
Definition ready (t : text) (g : tgen) : Prop :=
  tg_spelled t g /\ if tg_started g then at_char (s_txt (tg_sou g)) else prot (s_txt (tg_sou g)).
Lemma text_next_prot k t g s : ready t g -> (tg_started g = true -> s_txt (tg_sou g) <> []) ->
  match text_next cx imp k g s with
  | Ok (g', s') => s' = s /\ ready t g' /\ tg_started g' = true /\
      (length (s_txt (tg_sou g')) + (if tg_started g then 1 else 0) <= length (s_txt (tg_sou g)))%nat
  | Err _ => tail <> []
  | Fuel => False
  end.
Proof.
  intros [G A] St. unfold text_next, bind.
  assert (G1 : exists g1, (if tg_started g then lift (text_plain g) else ret g) s = Ok (g1, s) /\ tg_spelled t g1 /\ prot (s_txt (tg_sou g1)) /\
    (length (s_txt (tg_sou g1)) + (if tg_started g then 1 else 0) <= length (s_txt (tg_sou g)))%nat).
  { destruct (tg_started g); [|exists g; split; [reflexivity|split; [exact G|split; [exact A|lia]]]].
    destruct (s_txt (tg_sou g)) as [|c r] eqn:E; [destruct (St eq_refl eq_refl)|]. destruct A as [P A].
    destruct (text_plain_char t g c r P G E) as (g' & H & G' & Er). exists g'. unfold lift. rewrite H, Er. cbn [length].
    split; [reflexivity|split; [exact G'|split; [exact A|lia]]]. }
  destruct G1 as (g1 & -> & ((w & S & T) & L) & N & Lg).
  pose proof (items_prot k (Datatypes.S (length (s_txt (tg_sou g1)))) (tg_ast g1) (tg_sou g1) s N ltac:(lia)) as H.
  destruct (text_items _ _ _ _ _ _ _) as [[[sou' ast'] s']|e|]; [|exact H|exact H].
  destruct H as [-> [(extra & w2 & -> & S2 & T2 & Ex) R]]. unfold ret. split; [reflexivity|].
  cbn [tg_sou tg_started].
  assert (Lt : (length (s_txt sou') + (if tg_started g then 1 else 0) <= length (s_txt (tg_sou g)))%nat)
    by (apply (f_equal (@length BinNums.N)) in T2; rewrite app_length in T2; lia).
  split; [|split; [reflexivity|exact Lt]].
  unfold ready, tg_spelled. cbn [tg_sou tg_ast tg_plain tg_ret tg_started]. split; [|exact R]. split.
  - exists (w ++ w2). split; [apply spells_app; assumption|]. rewrite T, T2. apply app_assoc.
  - destruct (tg_plain g1) as [pg|]; [|exact L]. destruct L as (L1 & L2 & L3 & L5 & L4). split; [exact L1|]. split; [exact L2|].
    split; [exact L3|]. pose proof (f_equal (@length BinNums.N) T2) as Len. rewrite app_length in Len. split; [lia|]. intros E'.
    assert (W : w2 = []) by (rewrite <- E' in L5; destruct w2; [reflexivity|cbn [length] in Len; lia]).
    rewrite (Ex W), app_nil_r. apply L4. rewrite T2, W. exact E'.
Qed.

Lemma drive_prot k t n : forall g s, ready t g -> (tg_started g = true -> s_txt (tg_sou g) <> []) ->
  (length (s_txt (tg_sou g)) + (if tg_started g then 0 else 1) < n)%nat ->
  (forall g s, exists k', k_next k g s = text_next cx imp k' g s) ->
  match drive n k stop_eof g s with
  | Ok (rest, g', s') => s' = s /\ spells (tg_ast g') t /\ tail = []
  | Err _ => tail <> []
  | Fuel => False
  end.
Proof.
  induction n as [|n IH]; intros g s G St Ln K; [lia|]. cbn [drive]. unfold bind.
  destruct (K g s) as [k' ->].
  pose proof (text_next_prot k' t g s G St) as N.
  destruct (text_next cx imp k' g s) as [[g' s']|e|] eqn:E; [|exact N|exact N]. destruct N as [-> (G' & S' & L')].
  unfold stop_eof at 1. destruct (s_txt (tg_sou g')) as [|c r] eqn:Et.
  - cbn. split; [reflexivity|]. destruct G' as [((w & S & T) & _) A]. rewrite Et, app_nil_r in T. subst w. split; [exact S|].
    rewrite S', Et in A. exact A.
  - apply IH; [exact G'|congruence| |exact K]. rewrite S', Et. destruct (tg_started g); lia.
Qed.
Lemma whole_prot t sou s : prot t -> s_txt sou = t ->
  match drive_text (knot cx imp (S (length t))) stop_eof sou s with
  | Ok (rest, g', s') => s' = s /\ spells (tg_ast g') t /\ tail = []
  | Err _ => tail <> []
  | Fuel => False
  end.
Proof.
  intros P E. unfold drive_text. rewrite E.
  apply drive_prot; [|discriminate| |intros; exists (knot cx imp (length t)); reflexivity].
  - unfold ready, tg_spelled. cbn [text_start tg_sou tg_ast tg_plain tg_ret tg_started]. rewrite E.
    split; [|exact P]. split; [exists []; split; [constructor|reflexivity]|reflexivity].
  - cbn [text_start tg_sou tg_started]. rewrite E. lia.
Qed.
End Protect.

Lemma parse_protected cx d key s decl t tail : tail = [] \/ unclosed (c_skip cx) tail ->
  protected (c_python cx) (c_skip cx) tail t -> no_header cx key t -> dict_get key (y_source s) = Some (decl, t) ->
  match yuparse cx (S d) key s with
  | Ok (l, s') => s' = s /\ spells l t /\ tail = []
  | Err _ => tail <> []
  | Fuel => False
  end.
Proof.
  intros Ht P H D. destruct t as [|c t].
  { cbn [yuparse]. unfold yuparse_with, bind, get_st. rewrite D. cbn. split; [reflexivity|]. split; [constructor|].
    inversion P as [Et| | |w r Py L X E1|cm r T X E1]; [congruence| |].
    - destruct (literal_head w r L) as (c & x & Ew & _). subst w. discriminate.
    - destruct T; cbn in E1; discriminate. }
  set (t1 := c :: t) in *.
  assert (Hd : (if teqb (c_main cx) key && c_python cx then ps_header_python (Src t1 (Some key) 0) else ret (Src t1 (Some key) 0, None)) s
               = Ok (Src t1 (Some key) 0, None, s)).
  { destruct H as [H|[H|H]].
    - rewrite H, andb_false_r. reflexivity.
    - replace (teqb (c_main cx) key) with false by (symmetry; apply teqb_neq; congruence). reflexivity.
    - destruct (_ && _); [apply H|reflexivity]. }
  cbn [yuparse]. unfold yuparse_with. unfold bind at 1, get_st. rewrite D. unfold t1 at 1. cbv iota. fold t1.
  unfold bind at 1. rewrite Hd. cbn [s_txt]. unfold t1 at 1. cbv iota. unfold bind.
  pose proof (whole_prot cx (yuparse cx d) tail Ht t1 (Src t1 (Some key) 0) s P eq_refl) as G.
  destruct (drive_text _ _ _ _) as [[[rest g] s']|e|]; exact G.
Qed.

(** ** One comment, one literal, whatever follows *)
Lemma no_quote_head py c r f p : c = 47 \/ c = 35 -> ps_quote py (Src (c :: r) f p) = Ok (Src (c :: r) f p, None).
Proof.
  intros C. set (sou := Src (c :: r) f p).
  assert (N : forall v, ~ begins (40 :: v) (s_txt sou)) by (intros v [x X]; injection X as X _; lia).
  assert (B : ps_backquote sou = Ok (sou, None)).
  { unfold ps_backquote. change ps_BQUOTE with (lit "(`"). rewrite (not_begins (lit "(`") _ (N _)).
    change ps_QUOTE with (lit "($" ++ lit "quote"). rewrite (not_begins_app (lit "($") _ _ (N _)). reflexivity. }
  unfold ps_quote. destruct py.
  - unfold ps_string_python. rewrite no_string; [exact B|]. intros X. apply string_begins_head in X. lia.
  - unfold sou, c_literal, ch_dquote, ch_squote. cbn [s_txt].
    replace (c =? 34) with false by lia. replace (c =? 39) with false by lia. exact B.
Qed.
Lemma comment_item cx imp k c rest f p s : target_comment (c_skip cx) c rest ->
  text_item cx imp k (Src (c ++ rest) f p) s = Ok (Src rest f (p + Z.of_nat (length c)), Some [NRemark (Src c f p)], s).
Proof.
  intros T. assert (Hd : exists a r, c ++ rest = a :: r /\ (a = 47 \/ a = 35)).
  { destruct (c ++ rest) as [|a r] eqn:E; [destruct T; discriminate|]. exists a, r. split; [reflexivity|]. eapply comment_head; [exact T|exact E]. }
  destruct Hd as (a & r & E & Ha).
  assert (N : ~ begins (lit "($") (s_txt (Src (c ++ rest) f p))).
  { cbn [s_txt]. rewrite E. intros [x X]. change (a :: r = 40 :: 36 :: x) in X. injection X as X _. lia. }
  rewrite item_reaches_quote by exact N. rewrite E, no_quote_head by exact Ha. unfold bind at 1, lift at 1, remark_step. cbn [fst snd].
  rewrite <- E. clear E N Ha a r. inversion T as [b x Fb R Em Ec Er|b x O Em Ec Er|b x Fb R Em Ec Er]; subst c x.
  - unfold bind, lift. rewrite <- app_assoc, remark_line by assumption. reflexivity.
  - unfold bind, lift. rewrite <- !app_assoc, remark_block by assumption. cbn [fst snd option_map]. unfold ret. do 4 f_equal.
    rewrite !app_length. cbn. lia.
  - change ((35 :: b) ++ rest) with (35 :: b ++ rest). rewrite remark_python by assumption. reflexivity.
Qed.
Lemma literal_item cx imp k q body rest f p s : c_python cx = false -> q = 34 \/ q = 39 -> literal_inside q body ->
  text_item cx imp k (Src (q :: body ++ q :: rest) f p) s =
  Ok (Src rest f (p + Z.of_nat (length body + 2)), Some [NStr (raw (q :: body ++ [q]))], s).
Proof.
  intros Py Q L.
  assert (N : ~ begins (lit "($") (q :: body ++ q :: rest)) by (intros [x X]; change (q :: body ++ q :: rest = 40 :: 36 :: x) in X; injection X as X _; lia).
  rewrite item_reaches_quote by exact N. rewrite Py. unfold ps_quote. cbn [s_txt].
  assert (Lt : c_literal_tail q (body ++ q :: rest) = Some (Datatypes.S (length body))) by (apply literal_tail; [lia|exact L]).
  assert (E : q :: body ++ q :: rest = (q :: body ++ [q]) ++ rest) by (cbn; rewrite <- app_assoc; reflexivity).
  assert (El : Datatypes.S (Datatypes.S (length body)) = length (q :: body ++ [q])) by (cbn; rewrite app_length; cbn; lia).
  assert (X : Ok (sfrom (Datatypes.S (Datatypes.S (length body))) (Src (q :: body ++ q :: rest) f p),
                  Some [NStr (raw (firstn (Datatypes.S (Datatypes.S (length body))) (q :: body ++ q :: rest)))], s) =
              Ok (Src rest f (p + Z.of_nat (length body + 2)), Some [NStr (raw (q :: body ++ [q]))], s)).
  { rewrite E, El, sfrom_app, firstn_length_app, <- El. do 4 f_equal. lia. }
  destruct Q as [-> | ->].
  - change (c_literal ch_dquote (34 :: body ++ 34 :: rest)) with (option_map Datatypes.S (c_literal_tail 34 (body ++ 34 :: rest))). rewrite Lt. exact X.
  - change (c_literal ch_dquote (39 :: body ++ 39 :: rest)) with (@None nat). cbv iota.
    change (c_literal ch_squote (39 :: body ++ 39 :: rest)) with (option_map Datatypes.S (c_literal_tail 39 (body ++ 39 :: rest))). rewrite Lt. exact X.
Qed.
Lemma python_item cx imp k w rest f p s : c_python cx = true -> python_literal w rest ->
  text_item cx imp k (Src (w ++ rest) f p) s = Ok (Src rest f (p + Z.of_nat (length w)), Some [NStr (Src w f p)], s).
Proof.
  intros Py L. destruct (literal_head w rest L) as (c & x & Ew & Hc).
  assert (N : ~ begins (lit "($") (w ++ rest)) by (intros [y X]; rewrite Ew in X; change (c :: x ++ rest = 40 :: 36 :: y) in X; injection X as X _; lia).
  rewrite item_reaches_quote by exact N. rewrite Py. unfold ps_quote, ps_string_python. cbn [s_txt]. rewrite (python_string w rest L).
  unfold bind, lift. cbn [fst snd]. unfold ret. rewrite sfrom_app, sto_app. reflexivity.
Qed.
