(** * Sources of text and written constructs are read as they are written *)
From Coq Require Import List NArith ZArith Bool Lia ZifyBool ZifyNat ZifyN.
From Verif Require Import PyStr PyStrFacts Ast Lex LexSpec LexFacts LexFacts2 Parse ParseSpec ParseFacts ParseFacts2 ParseFacts3 PpSpec PpFacts ProtectSpec PyLitFacts ProtectFacts ExprSpec ExprFacts ExprFacts2 DocSpec ExprFacts3.
Import ListNotations.
Open Scope N_scope.
Open Scope monad_scope.

Lemma chars_of_app a b : chars_of (a ++ b) = chars_of a ++ chars_of b.
Proof. apply map_app. Qed.
Definition ends_item (d : contents) : Prop := d = [] \/ exists a x, d = a ++ [inr x].
Definition is_nil (d : contents) : bool := match d with [] => true | _ => false end.
Lemma runs_item x d : forall b w, runs b w (d ++ [inr x]) = runs b w d ++ [x].
Proof. induction d as [|[c|y] d IH]; intros b w; cbn [app runs]; [reflexivity|apply IH|]. rewrite IH, <- app_assoc. reflexivity. Qed.
Lemma runs_chars t : forall b w, runs b w (chars_of t) = run b (w ++ t).
Proof. induction t as [|c t IH]; intros b w; cbn [chars_of map runs]; [rewrite app_nil_r; reflexivity|]. fold (chars_of t). rewrite IH, <- app_assoc. reflexivity. Qed.
Lemma runs_behind x t d : forall b w, runs b w (d ++ inr x :: chars_of t) = runs b w (d ++ [inr x]) ++ run false t.
Proof.
  induction d as [|[c|y] d IH]; intros b w; cbn [app runs]; [|apply IH|].
  - rewrite runs_chars, <- app_assoc. cbn [app]. reflexivity.
  - rewrite IH, <- app_assoc. reflexivity.
Qed.
Lemma runs_run a t : ends_item a -> runs true [] (a ++ chars_of t) = runs true [] a ++ run (is_nil a) t.
Proof.
  intros [->|(b & x & ->)]; [apply (runs_chars t true [])|]. rewrite <- app_assoc. cbn [app]. rewrite runs_behind. f_equal. destruct b; reflexivity.
Qed.
Lemma runs_nil d : runs true [] d = [] -> d = [].
Proof.
  destruct d as [|[c|x] d]; [reflexivity| |intros H; exfalso; discriminate H]. cbn [runs app].
  assert (H : forall d w, w <> [] -> runs true w d <> []).
  { clear. induction d as [|[c|x] d IH]; intros w Hw; cbn [runs].
    - destruct w; [congruence|discriminate].
    - apply IH. destruct w; discriminate.
    - destruct w; discriminate. }
  intros E. destruct (H d [c] ltac:(discriminate) E).
Qed.
Lemma stands_item l d x : stands_for l d -> stands_for (l ++ [x]) (d ++ [inr (bare x)]).
Proof. unfold stands_for. intros H. rewrite map_app, H, runs_item. reflexivity. Qed.
Lemma stands_items ex : forall l d, stands_for l d -> stands_for (l ++ ex) (d ++ map (fun x => inr (bare x)) ex).
Proof.
  induction ex as [|x ex IH]; intros l d H; cbn [map]; [rewrite !app_nil_r; exact H|].
  change (x :: ex) with ([x] ++ ex). change (inr (bare x) :: map (fun x => inr (bare x)) ex) with ([@inr char node (bare x)] ++ map (fun x => inr (bare x)) ex).
  rewrite !app_assoc. apply IH, stands_item, H.
Qed.

(** What closes a text *)
Definition fits (dl : delim) (rest : text) : Prop := (dl = DSource -> rest = []) /\ (match dl with DUntil _ => delim_ok dl | _ => True end).
Lemma until_head w : delim_ok (DUntil w) -> exists c r, w = c :: r /\ (c = 44 \/ c = 41 \/ c = 92).
Proof. intros [-> | [-> | (a & g & _ & _ & ->)]]; [exists 44, [44]|exists 41, []|eexists 92, _]; (split; [reflexivity|lia]). Qed.
Lemma closing_head dl rest : fits dl rest ->
  closing dl ++ rest = [] \/ exists c r, closing dl ++ rest = c :: r /\ (c = 93 \/ c = 125 \/ c = 10 \/ c = 59 \/ c = 41 \/ c = 44 \/ c = 92).
Proof.
  intros [H D]. destruct dl as [| |ind| |w| | |]; cbn [closing].
  - right. exists 93, rest. split; [reflexivity|lia].
  - right. exists 125, rest. split; [reflexivity|lia].
  - right. eexists 10, _. split; [reflexivity|lia].
  - right. exists 59, (59 :: rest). split; [reflexivity|lia].
  - right. apply until_head in D as (c & r & -> & D). eexists _, _. split; [reflexivity|lia].
  - right. exists 41, rest. split; [reflexivity|lia].
  - right. exists 41, rest. split; [reflexivity|lia].
  - left. rewrite H by reflexivity. reflexivity.
Qed.
Lemma closing_nil dl rest : fits dl rest -> closing dl = [] -> dl = DSource.
Proof. intros [_ D] E. destruct dl as [| |ind| |w| | |]; try discriminate E; [|reflexivity]. apply until_head in D as (c & r & -> & _). discriminate E. Qed.

(** ** A text and what follows it *)
Section Tail.
Variables (cx : pctx).
Notation py := (c_python cx).
Notation md := (c_skip cx).
Lemma construct_head c t : spelled_construct py md c t -> exists r, t = 40 :: 36 :: r.
Proof.
  intros X; destruct X as [e t0 H K|b e g1 w g2 t0 z|v g1 g2|v e g1 g2 t0 z|a g1 g2 g3 ps body|body]; [|eexists; reflexivity..].
  destruct H as [sg sf w v suf S1 S2 S3|q' body Py Q Li|w Py Li|o body Q P B|v V|l u It|ev tight g args named w u r G Sf Fg Kw Ar|ps body u r N P Sb I'|v body g1 g2 g3 r V G1 G2 G3 Sb I'|b e0 body g1 w g2 u g3 u2 z G1 Bt G2 Se G3 Sb Cb Be Fe Fb|c1 e1 t1 g1 g2 u S1 I1 G1 G2 Sc Ic Fc|c1 e1 e0 t1 g1 g2 u g3 g4 t2 S1 I1 G1 G2 Sc Ic Fg G3 G4 S0 Fc|k0 o u d D O W]; try destruct K; try (eexists; reflexivity).
  destruct O as [k0|ind b c1 B L]; [|destruct K]. destruct k0; try destruct K; eexists; reflexivity.
Qed.
Lemma no_quote_text T f p : (py = true -> py_string_len T = Ok None) -> ~ begins (lit "($") T -> ~ begins (lit "(`") T ->
  match T with c :: _ => c <> 34 /\ c <> 39 | [] => True end -> ps_quote py (Src T f p) = Ok (Src T f p, None).
Proof.
  intros P N1 N2 Q. set (sou := Src T f p).
  assert (B : ps_backquote sou = Ok (sou, None)).
  { unfold ps_backquote. change ps_BQUOTE with (lit "(`"). rewrite (not_begins (lit "(`") sou N2).
    change ps_QUOTE with (lit "($" ++ lit "quote"). rewrite (not_begins_app (lit "($") _ sou N1). reflexivity. }
  unfold ps_quote. destruct py eqn:Py.
  - unfold ps_string_python. cbn [s_txt sou]. rewrite P by reflexivity. exact B.
  - unfold c_literal, ch_dquote, ch_squote. cbn [s_txt sou]. destruct T as [|c r]; [exact B|].
    replace (c =? 34) with false by lia. replace (c =? 39) with false by lia. exact B.
Qed.
Lemma no_item imp k T f p s : (py = true -> py_string_len T = Ok None) -> ~ begins (lit "($") T -> ~ begins (lit "(`") T ->
  match T with c :: _ => c <> 34 /\ c <> 39 | [] => True end -> ~ comment_begins md T ->
  text_item cx imp k (Src T f p) s = Ok (Src T f p, None, s).
Proof.
  intros P N1 N2 Q C. rewrite item_reaches_quote by exact N1. rewrite no_quote_text by assumption.
  unfold bind at 1, lift at 1, remark_step. cbn [fst snd]. destruct md eqn:M; cbn [comment_begins] in C.
  - reflexivity.
  - unfold ps_remark_c. rewrite !not_begins by (cbn [s_txt]; tauto). reflexivity.
  - unfold ps_remark_python, sis. cbn [s_txt]. destruct T as [|c r]; [reflexivity|]. replace (c =? ch_hash) with false; [reflexivity|].
    destruct (N.eqb_spec c ch_hash) as [->|]; [|reflexivity]. exfalso. apply C. exists r. reflexivity.
Qed.
Variables (dl : delim) (rest : text).
Hypothesis Hrest : fits dl rest.
Notation doc := (written py md dl).
Notation tail := (closing dl ++ rest).
Lemma string_tail t : ~ string_begins t -> ~ string_begins (t ++ tail).
Proof.
  intros N (p & q & x & P & Q & E). pose proof (closing_head dl rest Hrest) as Ht. unfold string_quote in Q.
  assert (K : forall c y, tail = c :: y -> c <> 34 /\ c <> 39 /\ c <> 117 /\ c <> 85 /\ c <> 114 /\ c <> 82).
  { intros c y X. destruct Ht as [Ht|(a & z & Ht & Ha)]; rewrite Ht in X; [discriminate|]. injection X as <- _. lia. }
  clear Ht. destruct P as [|a0 A|b0 B|a0 b0 A B]; destruct t as [|a [|b [|c t]]]; cbn [app] in E;
    try (apply K in E; lia); injection E; intros; subst;
    try match goal with H : tail = _ |- _ => apply K in H; lia end; apply N;
    [exists [], q, []|exists [], q, [b]|exists [], q, (b :: c :: t)|exists [a0], q, []|exists [a0], q, (c :: t)
    |exists [b0], q, []|exists [b0], q, (c :: t)|exists [a0; b0], q, t]; repeat split; solve [constructor; assumption|exact Q].
Qed.
Lemma python_closed w r : python_literal w (r ++ closing dl) -> python_literal w (r ++ tail).
Proof.
  rewrite app_assoc. set (u := r ++ closing dl). intros L.
  assert (B : forall q, ~ begins [q] u -> ~ begins [q] (u ++ rest)).
  { intros q H [x E]. destruct u as [|a y] eqn:Eu.
    - apply app_eq_nil in Eu as [_ Ed]. assert (Dd : dl = DSource) by (eapply closing_nil; eassumption). rewrite (proj1 Hrest Dd) in E. discriminate.
    - apply H. injection E as <- _. exists y. reflexivity. }
  destruct L; constructor; auto.
Qed.
Lemma begins_tail a b c r : b <> 93 -> b <> 125 -> b <> 10 -> b <> 59 -> b <> 41 -> b <> 44 -> b <> 92 -> ~ begins [a; b] (c :: r) -> ~ begins [a; b] (c :: r ++ tail).
Proof.
  intros B1 B2 B3 B4 B5 B6 B7 H [x E]. cbn [app] in E. injection E as -> E. destruct r as [|y r]; cbn [app] in E.
  - destruct (closing_head dl rest Hrest) as [Ht|(y & z & Ht & Hy)]; rewrite Ht in E; [discriminate|]. injection E as -> _. lia.
  - injection E as -> E. apply H. exists r. reflexivity.
Qed.
Lemma comment_tail c r : ~ comment_begins md (c :: r) -> ~ comment_begins md (c :: r ++ tail).
Proof.
  unfold comment_begins. destruct md; intros H.
  - exact H.
  - change (lit "//") with [47; 47] in *. change (lit "/*") with [47; 42] in *. intros [B|B]; revert B; apply begins_tail; try lia; tauto.
  - intros [x E]. apply H. injection E as -> E. exists r. reflexivity.
Qed.
Lemma comment_closed c r : target_comment md c (r ++ closing dl) -> target_comment md c (r ++ tail).
Proof.
  rewrite app_assoc. generalize (c_skip cx). intros m0 T.
  assert (R : r ++ closing dl = [] \/ (exists c r', r ++ closing dl = c :: r' /\ line_end c) -> (r ++ closing dl) ++ rest = [] \/ (exists c r', (r ++ closing dl) ++ rest = c :: r' /\ line_end c)).
  { intros [E|(x & y & E & Hx)].
    - left. apply app_eq_nil in E as [-> E]. assert (Ed : dl = DSource) by (eapply closing_nil; eassumption). rewrite (proj1 Hrest Ed), Ed. reflexivity.
    - right. rewrite E. eexists _, _. split; [reflexivity|exact Hx]. }
  inversion T; subst; constructor; auto.
Qed.

End Tail.

Section Doc.
Variables (cx : pctx) (imp : text -> M (list node)) (k : self) (size : nat).
Notation py := (c_python cx).
Notation md := (c_skip cx).
Hypothesis Hform : forall e t, spelled py md e t -> (length t < size)%nat -> form_reads k e t.
Hypothesis Hclose : closes k.
Hypothesis Htext : forall dl t d, delim_ok dl -> written py md dl level t d -> (S (length t) < size)%nat -> text_reads k dl t d.

(** ** Constructs *)
(** [ps_application] is reached *)
Lemma item_application sou s : sstarts ps_SET sou = false -> sstarts ps_LET sou = false -> sstarts ps_IMPORT sou = false -> sstarts ps_MACRO sou = false ->
  sstarts ps_COMMENT sou = false -> forall sou' x s', ps_application k sou s = Ok (sou', Some x, s') -> text_item cx imp k sou s = Ok (sou', Some [x], s').
Proof.
  intros K1 K2 K3 K4 K5 sou' x s' E. unfold text_item.
  rewrite (bind_ok _ _ s (sou, None) s) by (unfold ps_set; rewrite K1; reflexivity). cbv beta iota.
  rewrite (bind_ok _ _ s (sou, None) s) by (unfold ps_let; rewrite K2; reflexivity). cbv beta iota.
  rewrite (bind_ok _ _ s (sou, None) s) by (unfold ps_import; rewrite K3; reflexivity). cbv beta iota.
  rewrite (bind_ok _ _ s (sou, None) s) by (unfold ps_macro; rewrite K4; reflexivity). cbv beta iota.
  rewrite (bind_ok _ _ s (sou, None) s) by (unfold ps_comment; rewrite K5; reflexivity). cbv beta iota.
  rewrite (bind_ok _ _ _ _ _ E). reflexivity.
Qed.
(** an application, a local binding or an enclosed text in the text *)
Lemma item_reads e t f p s rest : spelled py md e t -> (length t <= size)%nat ->
  (match e with EApp _ _ _ _ _ | ELet _ _ _ | EText (DCode | DInfix) _ _ => True | _ => False end) ->
  exists x q, text_item cx imp k (Src (t ++ rest) f p) s = Ok (Src rest f q, Some [x], s) /\ bare x = tree e.
Proof.
  intros [sg sf w v suf S1 S2 S3|q' body Py Q Li|w Py Li|o body Q P B|v V|l u It|ev tight g args named w u r G Sf Fg Kw Ar|ps body u r N P Sb I'|v body g1 g2 g3 r V G1 G2 G3 Sb I'|b e0 body g1 w g2 u g3 u2 z G1 Bt G2 Se G3 Sb Cb Be Fe Fb|c e1 t1 g1 g2 u S1 I1 G1 G2 Sc Ic Fc|c e1 e0 t1 g1 g2 u g3 g4 t0 S1 I1 G1 G2 Sc Ic Fg G3 G4 S0 Fc|k0 o u d D O W] L K; try destruct K.
  - destruct (app_reads cx k size Hform Hclose Htext ev tight g args named w u r Sf G Fg Kw Ar L f p s rest) as ((U & Et & NW) & _ & (x & q & Ex & Bx)).
    destruct (no_word_at U NW) as (Q1 & Q2 & Q3 & Q4 & Q5 & Q6 & K1 & K2 & K3 & K4). rewrite <- Et in *. exists x, q. split; [|exact Bx]. apply item_application; assumption.
  - destruct (let_reads cx k size Hform Htext b e0 body g1 w g2 u g3 u2 z G1 Bt G2 Se G3 Sb Cb Be Fe Fb L f p s rest) as (x & q & Ex & Bx).
    clear L. rewrite <- !app_assoc in *. set (t' := lit "($let" ++ _) in *. assert (K1 : startswith ps_SET t' = false) by reflexivity.
    unfold text_item. rewrite (bind_ok _ _ s (Src t' f p, None) s) by (unfold ps_set, sstarts; cbn [s_txt]; rewrite K1; reflexivity). cbv beta iota.
    rewrite (bind_ok _ _ _ _ _ Ex). cbv beta iota. exists x, q. split; [reflexivity|exact Bx].
  - rewrite !app_length in L. rewrite <- !app_assoc. destruct O as [k0|ind b c B Lc]; [|destruct K].
    destruct k0; try destruct K; cbn [opening ending closing tree] in *.
    + assert (Lt : (S (length u) < size)%nat) by (change (length (lit "($code")) with 6%nat in L; lia).
      destruct (code_reads k u d f p s rest (Htext _ _ _ D W Lt)) as (g & q & Ec & S). exists (tg_leg g), q. split; [|apply bare_text, S].
      apply item_application; try reflexivity. exact Ec.
    + assert (Lt : (S (length u) < size)%nat) by (change (length (lit "(${}")) with 4%nat in L; lia).
      destruct (infix_reads k u d f p s rest (Htext _ _ _ D W Lt)) as (g & p' & q & Ec & S). exists (NInfix (tg_leg g) f p'), q.
      split; [|cbn [bare]; f_equal; apply bare_text, S]. apply item_application; try reflexivity. exact Ec.
Qed.
(** the output of a variable *)
Lemma emit_reads v g1 g2 f p s rest : var_ok v -> Forall white g1 -> Forall white g2 ->
  exists x q, ps_emit k (Src ((lit "($emit" ++ g1 ++ show_var v ++ g2 ++ lit ")") ++ rest) f p) s = Ok (Src rest f q, Some x, s) /\ bare x = tree_construct (CEmit v None).
Proof.
  intros V G1 G2. rewrite <- !app_assoc. change (lit ")" ++ rest) with (41 :: rest).
  unfold ps_emit. unfold sstarts at 1. cbn [s_txt]. change (startswith ps_EMIT (lit "($emit" ++ ?x)) with true. cbn [negb]. cbv iota.
  unfold sfrom at 1. cbn [s_txt s_file s_pos]. change (skipn 6 (lit "($emit" ++ ?x)) with x.
  assert (Gv : exists q, gap (Src (g1 ++ show_var v ++ g2 ++ 41 :: rest) f (p + Z.of_nat 6)) = Src (show_var v ++ g2 ++ 41 :: rest) f q).
  { pose proof V as V'. apply var_head in V' as (c & r & -> & Hc). cbn [app]. apply gap_over; [exact G1|chars]. }
  destruct Gv as [q0 ->].
  destruct (variable_ok v f q0 (g2 ++ 41 :: rest) V) as (rg & a & q & Ex & Br & Ba); [apply delimited_gap; [exact G2|chars..]|].
  rewrite (bind_ok _ _ _ _ _ (lift_ok _ _ s Ex)). cbv beta iota. destruct (gap_over g2 41 rest f q G2 ltac:(chars)) as [q1 ->].
  rewrite (bind_ok _ _ _ _ _ (Hclose f q1 s rest)). cbv beta iota.
  unfold skip_tag. replace (sstarts ps_EMIT_T (Src (41 :: rest) f q1)) with false by reflexivity. cbv iota. rewrite sis_char. change (41 =? ch_close) with true. cbv iota.
  unfold sfrom. cbn [s_txt s_file s_pos skipn]. eexists _, _. split; [reflexivity|]. cbn [bare tree_construct]. rewrite Br, Ba. reflexivity.
Qed.
Lemma emit_expr_reads v e g1 g2 t z f p s rest : var_ok v -> Forall white g1 -> Forall white g2 -> spelled py md e t -> delimited (g2 ++ t) ->
  closed_by (lit "emit") z -> follows e z -> (length (lit "($emit" ++ g1 ++ show_var v ++ g2 ++ t ++ z) <= size)%nat ->
  exists x q, ps_emit k (Src ((lit "($emit" ++ g1 ++ show_var v ++ g2 ++ t ++ z) ++ rest) f p) s = Ok (Src rest f q, Some x, s) /\ bare x = tree_construct (CEmit v (Some e)).
Proof.
  intros V G1 G2 Se De Cb Fe L. rewrite !app_length in L. rewrite <- !app_assoc.
  unfold ps_emit. unfold sstarts at 1. cbn [s_txt]. change (startswith ps_EMIT (lit "($emit" ++ ?x)) with true. cbn [negb]. cbv iota.
  unfold sfrom at 1. cbn [s_txt s_file s_pos]. change (skipn 6 (lit "($emit" ++ ?x)) with x.
  assert (Gv : exists q, gap (Src (g1 ++ show_var v ++ g2 ++ t ++ z ++ rest) f (p + Z.of_nat 6)) = Src (show_var v ++ g2 ++ t ++ z ++ rest) f q).
  { pose proof V as V'. apply var_head in V' as (c & r & -> & Hc). cbn [app]. apply gap_over; [exact G1|chars]. }
  destruct Gv as [q0 ->].
  assert (D' : delimited (g2 ++ t ++ z ++ rest)).
  { pose proof (spelled_tail _ _ _ _ _ G2 Se) as (g' & c & r & E & G' & W' & _ & _ & N'). rewrite app_assoc. apply delimited_more; [exact De|rewrite E; destruct g'; discriminate|].
    rewrite E. destruct G' as [|a g' A G']; cbn [app]; [congruence|]. intros X. injection X as -> _. chars. }
  destruct (variable_ok v f q0 (g2 ++ t ++ z ++ rest) V D') as (rg & a & q & Ex & Br & Ba).
  rewrite (bind_ok _ _ _ _ _ (lift_ok _ _ s Ex)). cbv beta iota. destruct (gap_spelled cx g2 e t (z ++ rest) f q G2 Se) as [q1 ->].
  destruct (form_at cx k size Hform e t z f q1 s rest Se ltac:(lia) Fe (closed_tail _ _ Cb)) as (y & q2 & Ey & By).
  rewrite (bind_ok _ _ _ _ _ Ey). cbv beta iota. rewrite gap_gap.
  destruct (closed_ok cx k size Hform Htext (lit "emit") z f q2 rest Cb) as [q4 Ec]. change ps_EMIT_T with (92 :: lit "emit"). rewrite Ec. rewrite sis_char. change (41 =? ch_close) with true. cbv iota.
  unfold sfrom. cbn [s_txt s_file s_pos skipn]. eexists _, _. split; [reflexivity|]. cbn [bare tree_construct]. rewrite Br, Ba, By. reflexivity.
Qed.
(** a macro *)
Lemma macro_reads a g1 g2 g3 ps body f p rest : identifier a -> Forall white g1 -> Forall white g2 -> Forall white g3 -> params_ok ps -> Forall permitted body -> balanced body ->
  exists x q, ps_macro (Src ((lit "($macro" ++ g1 ++ a ++ g2 ++ 40 :: g3 ++ param_text ps ++ 41 :: body ++ lit ")") ++ rest) f p) = Ok (Src rest f q, Some x) /\
    bare x = tree_construct (CMacro a (map fst ps) body).
Proof.
  intros Ia G1 G2 G3 Po P B.
  destruct (macro_ok g1 a g2 g3 ps body rest f p G1 Ia G2 G3 Po P B) as (nm & l & E & E1 & E2).
  exists (NMacro nm l body). eexists.
  split; [exact E|]. cbn [bare tree_construct]. unfold bare_src at 1. rewrite E1. f_equal.
  replace (map bare_src l) with (map raw (map s_txt l)) by (rewrite map_map; reflexivity). rewrite E2, !map_map. reflexivity.
Qed.
(** the binding of a name *)
Lemma set_reads b e g1 w g2 t z f p s rest : Forall white g1 -> binder_text b w -> Forall white g2 -> spelled py md e t -> closed_by (lit "set") z ->
  binder_ends b (g2 ++ t) -> follows e z -> (length (lit "($set" ++ g1 ++ w ++ g2 ++ t ++ z) <= size)%nat ->
  exists x q, ps_set k (Src ((lit "($set" ++ g1 ++ w ++ g2 ++ t ++ z) ++ rest) f p) s = Ok (Src rest f q, Some x, s) /\
    bare x = tree_construct (CSet b e) /\ exists lv y, x = NSet lv y.
Proof.
  intros G1 Bt G2 Se Cb Be Fe L. rewrite !app_length in L. rewrite <- !app_assoc.
  unfold ps_set. unfold sstarts at 1. cbn [s_txt]. change (startswith ps_SET (lit "($set" ++ ?x)) with true. cbn [negb]. cbv iota.
  assert (G : exists q, gap (sfrom 5 (Src (lit "($set" ++ g1 ++ w ++ g2 ++ t ++ z ++ rest) f p)) = Src (w ++ g2 ++ t ++ z ++ rest) f q).
  { unfold sfrom. cbn [s_txt s_file s_pos]. change (skipn 5 (lit "($set" ++ ?x)) with x.
    apply (binder_head cx k size Hform Htext) in Bt as (c' & r' & -> & H'). cbn [app]. apply gap_over; assumption. }
  destruct G as [q0 G]. rewrite G.
  destruct (binding_ok cx k size Hform Htext b w g2 e t f q0 s z rest Bt G2 Se Be ltac:(lia) Fe (closed_tail _ _ Cb)) as (lv & x & q1 & Ex & Bl & Bx).
  rewrite (bind_ok _ _ _ _ _ Ex). cbv beta iota. rewrite gap_gap.
  destruct (closed_ok cx k size Hform Htext (lit "set") z f q1 rest Cb) as [q4 Ec]. change ps_SET_T with (92 :: lit "set"). rewrite Ec. rewrite sis_char. change (41 =? ch_close) with true. cbv iota.
  unfold sfrom. cbn [s_txt s_file s_pos skipn]. eexists _, _. split; [reflexivity|]. cbn [bare tree_construct]. rewrite Bl, Bx. split; [reflexivity|]. eauto.
Qed.
Lemma construct_reads c t f p s rest : spelled_construct py md c t -> (length t <= size)%nat ->
  exists x q, text_item cx imp k (Src (t ++ rest) f p) s = Ok (Src rest f q, Some [x], s) /\ bare x = tree_construct c.
Proof.
  intros W L. destruct W as [e t W K|b e g1 w g2 t z G1 Bt G2 Se Cb Be Fe|v g1 g2 V G1 G2|v e g1 g2 t z V G1 G2 Se De Cb Fe|a g1 g2 g3 ps body Ia G1 G2 G3 Po P B|body P B].
  - apply item_reads; assumption.
  - destruct (set_reads b e g1 w g2 t z f p s rest G1 Bt G2 Se Cb Be Fe L) as (x & q & E & B & _).
    exists x, q. unfold text_item. rewrite (bind_ok _ _ _ _ _ E). split; [reflexivity|exact B].
  - destruct (emit_reads v g1 g2 f p s rest V G1 G2) as (x & q & E & B). exists x, q. split; [|exact B]. apply item_application; try reflexivity. exact E.
  - destruct (emit_expr_reads v e g1 g2 t z f p s rest V G1 G2 Se De Cb Fe L) as (x & q & E & B). exists x, q. split; [|exact B]. apply item_application; try reflexivity. exact E.
  - destruct (macro_reads a g1 g2 g3 ps body f p rest Ia G1 G2 G3 Po P B) as (x & q & E & Bx). exists x, q. split; [|exact Bx].
    clear L. rewrite <- app_assoc in *. set (t := lit "($macro" ++ _) in *. unfold text_item.
    rewrite (bind_ok _ _ s (Src t f p, None) s) by reflexivity. cbv beta iota. rewrite (bind_ok _ _ s (Src t f p, None) s) by reflexivity. cbv beta iota.
    rewrite (bind_ok _ _ s (Src t f p, None) s) by reflexivity. cbv beta iota. rewrite (bind_ok _ _ _ _ _ (lift_ok _ _ s E)). reflexivity.
  - cbn [tree_construct]. rewrite <- !app_assoc. change (lit ")" ++ rest) with (41 :: rest). pose proof (comment_ok body rest f p P B) as E.
    set (t := lit "($!" ++ body ++ 41 :: rest) in *. exists NComment, (p + Z.of_nat (3 + length body + 1))%Z. split; [|reflexivity]. unfold text_item.
    rewrite (bind_ok _ _ s (Src t f p, None) s) by reflexivity. cbv beta iota. rewrite (bind_ok _ _ s (Src t f p, None) s) by reflexivity. cbv beta iota.
    rewrite (bind_ok _ _ s (Src t f p, None) s) by reflexivity. cbv beta iota. rewrite (bind_ok _ _ s (Src t f p, None) s) by reflexivity. cbv beta iota.
    rewrite (bind_ok _ _ _ _ _ (lift_ok _ _ s E)). reflexivity.
Qed.
(** a quotation in the text *)
Lemma quotation_reads o body f p s rest : quote_opening o -> Forall permitted body -> balanced body ->
  exists x q, text_item cx imp k (Src (o ++ body ++ 41 :: rest) f p) s = Ok (Src rest f q, Some [x], s) /\ bare x = NStr (raw body).
Proof.
  intros Q P B. destruct (quote_ok py o body rest f p Q P B) as (x & E & Tx & _). eexists (NStr x), (p + Z.of_nat (length o + length body + 1))%Z. split; [|cbn [bare]; unfold bare_src; rewrite Tx; reflexivity].
  destruct Q as [-> | ->].
  - rewrite item_reaches_quote by (intros [y Y]; discriminate). rewrite E. reflexivity.
  - set (t := lit "($quote" ++ _) in *. unfold text_item.
    rewrite (bind_ok _ _ s (Src t f p, None) s) by reflexivity. cbv beta iota. rewrite (bind_ok _ _ s (Src t f p, None) s) by reflexivity. cbv beta iota.
    rewrite (bind_ok _ _ s (Src t f p, None) s) by reflexivity. cbv beta iota. rewrite (bind_ok _ _ s (Src t f p, None) s) by reflexivity. cbv beta iota.
    rewrite (bind_ok _ _ s (Src t f p, None) s) by reflexivity. cbv beta iota. rewrite (bind_ok _ _ s (Src t f p, None) s) by reflexivity. cbv beta iota.
    rewrite (bind_ok _ _ _ _ _ (lift_ok _ _ s E)). reflexivity.
Qed.

Variables (dl : delim) (rest : text).
Hypothesis Hrest : fits dl rest.
Notation doc := (written py md dl).
Notation tail := (closing dl ++ rest).

(** ** One step *)
Lemma doc_step sq t d f p s : doc sq t d -> (length t <= size)%nat ->
  (text_item cx imp k (Src (t ++ tail) f p) s = Ok (Src (t ++ tail) f p, None, s) /\
     match t with [] => d = [] /\ may_end dl sq | c :: r => permitted c /\ ~ closes_at dl sq (c :: r ++ closing dl) /\ exists d', doc (depth_behind c sq) r d' /\ d = inl c :: d' end) \/
  (exists x r q d1 d2, text_item cx imp k (Src (t ++ tail) f p) s = Ok (Src (r ++ tail) f q, Some [x], s) /\
     d1 = [inr (bare x)] /\ (length r < length t)%nat /\ doc sq r d2 /\ d = d1 ++ d2).
Proof.
  intros D L. pose proof (closing_head dl rest Hrest) as Ht. pose proof (comment_closed cx dl rest Hrest) as Cc. pose proof (comment_tail cx dl rest Hrest) as Ct. pose proof (begins_tail dl rest Hrest) as Bt. pose proof (string_tail dl rest Hrest) as Ns. pose proof (python_closed dl rest Hrest) as Pc.
  destruct D as [k0 sq Me|k0 sq c r d P N1 N2 B1 B2 K Z Cl H|k0 sq q body r d Py Q Li H|k0 sq w r d Py Li H|k0 sq cm r d T H|k0 sq o body r d Qo P B H|k0 sq c t r d W H].
  - left. split; [|split; [reflexivity|exact Me]]. cbn [app]. specialize (Ns []). cbn [app] in Ns.
    assert (N : forall c v, c <> 93 -> c <> 125 -> c <> 10 -> c <> 59 -> c <> 41 -> c <> 44 -> c <> 92 -> ~ begins (c :: v) (closing k0 ++ rest)).
    { intros c v X1 X2 X3 X4 X5 X6 X7 [x X]. destruct Ht as [Ht|(y & z & Ht & Hy)]; rewrite Ht in X; [discriminate|]. injection X as -> _. lia. }
    apply no_item; [intros _; apply no_string, Ns; intros (p' & q' & r' & _ & _ & X); destruct p'; discriminate|apply N; discriminate|apply N; discriminate| |].
    + destruct Ht as [-> |(y & z & -> & Hy)]; [exact I|lia].
    + unfold comment_begins. destruct md; [tauto| |]; [intros [X|X]|intros X]; revert X; apply N; discriminate.
  - left. split; [|eauto]. cbn [app]. apply no_item; [intros Py; exact (no_string _ (Ns _ (Z Py)))|apply Bt; try discriminate; exact B1|apply Bt; try discriminate; exact B2|auto|apply Ct, K].
  - right. cbn [app]. rewrite <- app_assoc. cbn [app]. eexists _, r, _, _, d. split; [apply literal_item; assumption|]. split; [reflexivity|].
    split; [cbn [length]; rewrite app_length; cbn [length]; lia|]. auto.
  - right. rewrite <- app_assoc. eexists _, r, _, _, d. split; [apply python_item; [exact Py|apply Pc, Li]|]. split; [reflexivity|].
    split; [|auto]. destruct (literal_head _ _ Li) as (c & x & -> & _). cbn [app length]. rewrite app_length. lia.
  - right. rewrite <- app_assoc. eexists _, r, _, _, d. split; [apply comment_item, Cc, T|]. split; [reflexivity|].
    split; [|auto]. rewrite app_length. assert (length cm <> O) by (destruct T; cbn; lia). lia.
  - right. rewrite <- !app_assoc. cbn [app]. destruct (quotation_reads o body f p s (r ++ closing k0 ++ rest) Qo P B) as (x & q & E & Bx).
    exists x, r, q, [inr (bare x)], d. split; [exact E|]. split; [reflexivity|]. split; [|split; [exact H|rewrite Bx; reflexivity]]. rewrite !app_length. cbn [length]. lia.
  - right. assert (Lc : (length t <= size)%nat) by (rewrite app_length in L; lia). rewrite <- app_assoc.
    destruct (construct_reads c t f p s (r ++ closing k0 ++ rest) W Lc) as (x & q & E & Bx).
    exists x, r, q, [inr (bare x)], d. split; [exact E|]. split; [reflexivity|].
    split; [|split; [exact H|rewrite Bx; reflexivity]].
    apply (construct_head cx) in W as (y & W). rewrite W. cbn [length app]. rewrite app_length. lia.
Qed.

(** the point at which the generator of the text stops *)
Definition stopped (sq : depth) (t : text) (d : contents) : Prop :=
  match t with [] => d = [] /\ may_end dl sq | c :: r => permitted c /\ ~ closes_at dl sq (c :: r ++ closing dl) /\ exists d', doc (depth_behind c sq) r d' /\ d = inl c :: d' end.
Notation stand_as ex := (map (fun x => @inr char node (bare x)) ex).
Lemma items_doc n : forall ast sq t d f p s, doc sq t d -> (length t <= size)%nat -> (length t < n)%nat ->
  exists r q extra d2, text_items cx imp n k ast (Src (t ++ tail) f p) s = Ok (Src (r ++ tail) f q, ast ++ extra, s) /\
    (length r <= length t)%nat /\ (length r = length t -> r = t /\ extra = []) /\ (length r < length t -> extra <> [])%nat /\ stopped sq r d2 /\ d = stand_as extra ++ d2.
Proof.
  induction n as [|n IH]; intros ast sq t d f p s D L Ln; [lia|]. cbn [text_items].
  destruct (doc_step sq t d f p s D L) as [[E R]|(x & r & q & d1 & d2 & E & S1 & Lr & D2 & ->)].
  - rewrite (bind_ok _ _ _ _ _ E). cbv beta iota. exists t, p, [], d. rewrite app_nil_r. split; [reflexivity|]. split; [lia|].
    split; [auto|]. split; [lia|]. split; [exact R|reflexivity].
  - rewrite (bind_ok _ _ _ _ _ E). cbv beta iota.
    destruct (IH (ast ++ [x]) sq r d2 f q s D2 ltac:(lia) ltac:(lia)) as (r2 & q2 & ex & d4 & E2 & L2 & _ & _ & R2 & ->).
    exists r2, q2, (x :: ex), d4. rewrite E2, <- app_assoc. split; [reflexivity|].
    split; [lia|]. split; [lia|]. split; [discriminate|]. split; [exact R2|]. rewrite S1. cbn [map app]. reflexivity.
Qed.

(** ** The generator of the text *)
Definition open_in (g : tgen) : depth := (tg_sq g, tg_pth g).
Variable file : option text.
Definition plain_kept (d1 : contents) (g : tgen) : Prop :=
  match tg_plain g with
  | None => tg_ret g = [] /\ ends_item d1
  | Some pg => tg_ret g = s_txt (pg_rest pg) /\ (0 < pg_i pg)%nat /\ (pg_i pg <= length (s_txt (pg_sou pg)))%nat /\
      (length (s_txt (tg_sou g)) <= length (tg_ret g))%nat /\ (pg_sq pg, pg_pth pg) = open_in g /\ s_file (pg_sou pg) = file /\
      (s_txt (tg_sou g) = tg_ret g -> exists ast0 a, tg_ast g = ast0 ++ [pg_leg pg] /\ ends_item a /\ stands_for ast0 a /\
         d1 = a ++ chars_of (firstn (pg_i pg) (s_txt (pg_sou pg))) /\
         pg_ind pg = fold_left indent_behind (firstn (pg_i pg) (s_txt (pg_sou pg))) (if is_nil a then IndStr [] else IndNone)) /\
      (s_txt (tg_sou g) <> tg_ret g -> ends_item d1)
  end.
Definition at_point (d0 : contents) (g : tgen) (t : text) : Prop :=
  exists d1 d2, stands_for (tg_ast g) d1 /\ plain_kept d1 g /\ d0 = d1 ++ d2 /\ s_txt (tg_sou g) = t ++ tail /\ s_file (tg_sou g) = file /\
  (if tg_started g then stopped (open_in g) t d2 else doc (open_in g) t d2).
Lemma pg_leg_bare pg a ast0 : ends_item a -> stands_for ast0 a -> firstn (pg_i pg) (s_txt (pg_sou pg)) <> [] ->
  pg_ind pg = fold_left indent_behind (firstn (pg_i pg) (s_txt (pg_sou pg))) (if is_nil a then IndStr [] else IndNone) ->
  stands_for (ast0 ++ [pg_leg pg]) (a ++ chars_of (firstn (pg_i pg) (s_txt (pg_sou pg)))).
Proof.
  intros Ha Hs Hn Hi. unfold stands_for in *. rewrite map_app, Hs, (runs_run _ _ Ha). f_equal. unfold pg_leg. cbn [map bare]. rewrite Hi.
  unfold bare_src, sto. cbn [s_txt]. unfold run. destruct (firstn (pg_i pg) (s_txt (pg_sou pg))); [congruence|reflexivity].
Qed.
Lemma plain_next_depth g c r : s_txt (pg_rest g) = c :: r -> permitted c ->
  exists g', plain_next g = Ok g' /\ pg_sou g' = pg_sou g /\ pg_i g' = S (pg_i g) /\ (pg_sq g', pg_pth g') = depth_behind c (pg_sq g, pg_pth g) /\ pg_ind g' = indent_behind (pg_ind g) c.
Proof.
  intros E P. unfold plain_next. unfold pg_rest in E. destruct (pg_sou g) as [t f p] eqn:G. cbn [sfrom s_txt] in *.
  rewrite (skipn_nth _ _ _ _ E). replace (ps_ANY c) with true by (symmetry; apply ps_ANY_spec, P). cbn [negb].
  eexists. split; [reflexivity|]. cbn [pg_sou pg_i pg_sq pg_pth pg_ind]. repeat split.
  unfold indent_behind. replace (ps_EOL c) with ((c =? 10) || (c =? 13)); [replace (ps_SPACE c) with ((c =? 32) || (c =? 9)); [destruct (_ || _); [reflexivity|]; destruct (_ || _); [|reflexivity]; destruct (pg_ind g); reflexivity|]|].
  - apply eq_true_iff_eq. rewrite ps_SPACE_spec. unfold blank. lia.
  - apply eq_true_iff_eq. rewrite ps_EOL_spec. unfold line_end. lia.
Qed.

Lemma text_plain_doc g c r d1 : permitted c -> plain_kept d1 g -> s_file (tg_sou g) = file -> stands_for (tg_ast g) d1 -> s_txt (tg_sou g) = c :: r ->
  exists g', text_plain g = Ok g' /\ plain_kept (d1 ++ [inl c]) g' /\ stands_for (tg_ast g') (d1 ++ [inl c]) /\ s_txt (tg_sou g') = r /\ s_file (tg_sou g') = file /\ open_in g' = depth_behind c (open_in g).
Proof.
  intros P K Fi S E. unfold text_plain.
  set (nonempty := match tg_ast g with [] => false | _ => true end).
  destruct (teqb (s_txt (tg_sou g)) (tg_ret g) && nonempty) eqn:R.
  - apply andb_true_iff in R as [R1 R2]. apply teqb_eq in R1. unfold plain_kept in K.
    destruct (tg_plain g) as [pg|]; [|destruct K as [K _]; rewrite R1, K in E; discriminate].
    destruct K as (L1 & L2 & L3 & _ & Lq & Lf & L4 & _). destruct (L4 R1) as (ast0 & a & A & Ea & Sa & Ed & Ei). rewrite A, removelast_last.
    assert (Er : s_txt (pg_rest pg) = c :: r) by congruence.
    destruct (plain_next_depth pg c r Er P) as (pg' & -> & G1 & G2 & G3 & G4).
    eexists. split; [reflexivity|].
    assert (R' : s_txt (pg_rest pg') = r).
    { unfold pg_rest in *. rewrite G1, G2. destruct (pg_sou pg) as [tt f p]. cbn [sfrom s_txt] in *.
      replace (Datatypes.S (pg_i pg)) with (pg_i pg + 1)%nat by lia. rewrite <- skipn_skipn', Er. reflexivity. }
    assert (Lp : (Datatypes.S (pg_i pg) <= length (s_txt (pg_sou pg)))%nat).
    { unfold pg_rest in Er. destruct (pg_sou pg) as [tt f p]. cbn [sfrom s_txt] in *.
      apply (f_equal (@length BinNums.N)) in Er. rewrite skipn_length in Er. cbn in Er. lia. }
    assert (Ew : firstn (pg_i pg') (s_txt (pg_sou pg')) = firstn (pg_i pg) (s_txt (pg_sou pg)) ++ [c]).
    { rewrite G1, G2. unfold pg_rest in Er. destruct (pg_sou pg) as [tt f p]. cbn [sfrom s_txt] in *.
      clear -Er. revert tt Er. induction (pg_i pg) as [|i IH]; intros [|x tt] Er; cbn in *; try discriminate.
      + injection Er as -> ->. reflexivity.
      + f_equal. apply IH, Er. }
    assert (Ei' : pg_ind pg' = fold_left indent_behind (firstn (pg_i pg') (s_txt (pg_sou pg'))) (if is_nil a then IndStr [] else IndNone)).
    { rewrite Ew, fold_left_app, <- Ei. exact G4. }
    assert (Ed' : d1 ++ [inl c] = a ++ chars_of (firstn (pg_i pg') (s_txt (pg_sou pg')))).
    { rewrite Ed, Ew, chars_of_app, <- app_assoc. reflexivity. }
    assert (Fr : s_file (pg_rest pg') = file) by (unfold pg_rest; rewrite G1; exact Lf).
    split; [|split; [|split; [exact R'|split; [exact Fr|unfold open_in at 1; cbn [tg_sq tg_pth]; rewrite G3, Lq; reflexivity]]]].
    + unfold plain_kept. cbn [tg_sou tg_ast tg_plain tg_ret tg_sq]. rewrite R'. split; [reflexivity|].
      split; [rewrite G2; lia|]. split; [rewrite G1, G2; exact Lp|]. split; [lia|]. split; [reflexivity|]. split; [rewrite G1; exact Lf|].
      split; [|intros X; congruence]. intros _. exists ast0, a. auto.
    + cbn [tg_ast]. rewrite Ed'. apply pg_leg_bare; try assumption. rewrite Ew. destruct (firstn (pg_i pg) (s_txt (pg_sou pg))); discriminate.
  - assert (Ed : ends_item d1).
    { apply andb_false_iff in R as [R|R].
      - unfold plain_kept in K. destruct (tg_plain g) as [pg|]; [|apply K]. apply K. intros X. rewrite X in R.
        rewrite (proj2 (teqb_eq (tg_ret g) (tg_ret g)) eq_refl) in R. discriminate R.
      - left. apply runs_nil. unfold stands_for in S. rewrite <- S. unfold nonempty in R. destruct (tg_ast g); [reflexivity|discriminate R]. }
    assert (Nn : (if nonempty then IndNone else IndStr []) = (if is_nil d1 then IndStr [] else IndNone)).
    { unfold stands_for in S. unfold nonempty. destruct (tg_ast g) as [|x l].
      - rewrite (runs_nil d1); [reflexivity|]. rewrite <- S. reflexivity.
      - destruct d1; [discriminate S|reflexivity]. }
    rewrite Nn. set (pg := plain_start (tg_sou g) (tg_sq g) (tg_pth g) (if is_nil d1 then IndStr [] else IndNone)).
    assert (Er : s_txt (pg_rest pg) = c :: r) by (unfold pg_rest; cbn [pg plain_start pg_i pg_sou]; rewrite sfrom_0; exact E).
    destruct (plain_next_depth pg c r Er P) as (pg' & -> & G1 & G2 & G3 & G4). cbn [pg plain_start pg_i pg_sou pg_sq pg_pth pg_ind] in G1, G2, G3, G4.
    eexists. split; [reflexivity|].
    assert (R' : s_txt (pg_rest pg') = r).
    { unfold pg_rest in *. rewrite G1, G2. destruct (tg_sou g) as [tt f p]. cbn [sfrom s_txt] in *. rewrite E. reflexivity. }
    assert (Ew : firstn (pg_i pg') (s_txt (pg_sou pg')) = [c]) by (rewrite G1, G2, E; reflexivity).
    assert (Ei' : pg_ind pg' = fold_left indent_behind (firstn (pg_i pg') (s_txt (pg_sou pg'))) (if is_nil d1 then IndStr [] else IndNone)).
    { rewrite Ew. exact G4. }
    assert (Ed' : d1 ++ [inl c] = d1 ++ chars_of (firstn (pg_i pg') (s_txt (pg_sou pg')))) by (rewrite Ew; reflexivity).
    assert (Fr : s_file (pg_rest pg') = file) by (unfold pg_rest; rewrite G1; exact Fi).
    split; [|split; [|split; [exact R'|split; [exact Fr|exact G3]]]].
    + unfold plain_kept. cbn [tg_sou tg_ast tg_plain tg_ret tg_sq]. rewrite R'. split; [reflexivity|].
      split; [rewrite G2; lia|]. split; [rewrite G1, G2, E; cbn [length]; lia|]. split; [lia|]. split; [reflexivity|]. split; [rewrite G1; exact Fi|].
      split; [|intros X; congruence]. intros _. exists (tg_ast g), d1. auto.
    + cbn [tg_ast]. rewrite Ed'. apply pg_leg_bare; try assumption. rewrite Ew. discriminate.
Qed.

Lemma text_next_doc d0 g s t : at_point d0 g t -> (tg_started g = true -> t <> []) ->
  (length t <= size)%nat ->
  exists g' t', text_next cx imp k g s = Ok (g', s) /\ at_point d0 g' t' /\ tg_started g' = true /\
      (length t' + (if tg_started g then 1 else 0) <= length t)%nat.
Proof.
  intros (d1 & d2 & S & K & Ed & Et & Ef & A) St L. unfold text_next.
  assert (G1 : exists g1 t1 d1 d2, (if tg_started g then lift (text_plain g) else ret g) s = Ok (g1, s) /\ plain_kept d1 g1 /\ stands_for (tg_ast g1) d1 /\
    d0 = d1 ++ d2 /\ s_txt (tg_sou g1) = t1 ++ tail /\ s_file (tg_sou g1) = file /\ doc (open_in g1) t1 d2 /\
    (length t1 + (if tg_started g then 1 else 0) <= length t)%nat).
  { destruct (tg_started g); [|exists g, t, d1, d2; split; [reflexivity|repeat (split; [assumption|]); lia]].
    destruct t as [|c r]; [destruct (St eq_refl eq_refl)|]. destruct A as (P & _ & d' & D' & ->). cbn [app] in Et.
    destruct (text_plain_doc g c (r ++ tail) d1 P K Ef S Et) as (g' & H & K' & S' & Er & Fr & Q'). exists g', r, (d1 ++ [inl c]), d'. unfold lift. rewrite H. cbn [length].
    split; [reflexivity|]. split; [exact K'|]. split; [exact S'|]. split; [rewrite <- app_assoc; exact Ed|]. split; [exact Er|]. split; [exact Fr|]. rewrite Q'. split; [exact D'|lia]. }
  clear d1 d2 S K Ed A. destruct G1 as (g1 & t1 & d1 & d2 & E1 & K1 & S1 & Ed & Et1 & Ef1 & D & Lg). rewrite (bind_ok _ _ _ _ _ E1).
  destruct (tg_sou g1) as [tx f p] eqn:Es. cbn [s_txt s_file] in *. subst tx f.
  destruct (items_doc (Datatypes.S (length (t1 ++ tail))) (tg_ast g1) (open_in g1) t1 d2 file p s D ltac:(lia) ltac:(rewrite app_length; lia)) as (r & q & ex & d4 & Ei & Lr & Same & More & R & Ed2).
  rewrite (bind_ok _ _ _ _ _ Ei). cbv beta iota. eexists _, r. split; [reflexivity|].
  split; [|split; [reflexivity|lia]].
  exists (d1 ++ stand_as ex), d4. cbn [tg_sou tg_ast tg_started s_txt s_file tg_sq]. split; [apply stands_items; assumption|].
  split; [|split; [rewrite Ed, Ed2; apply app_assoc|auto]].
  assert (Ends : ex <> [] -> ends_item (d1 ++ stand_as ex)).
  { intros Hx. right. destruct (exists_last Hx) as (l & x & ->). exists (d1 ++ stand_as l), (bare x). rewrite map_app, app_assoc. reflexivity. }
  unfold plain_kept in *. cbn [tg_sou tg_ast tg_plain tg_ret s_txt tg_sq]. destruct (tg_plain g1) as [pg|].
  2:{ destruct K1 as [K1 K2]. split; [exact K1|]. destruct ex; [cbn [map]; rewrite app_nil_r; exact K2|apply Ends; discriminate]. }
  rewrite Es in K1. cbn [s_txt] in K1. destruct K1 as (L1 & L2 & L3 & L4 & L5 & L6 & L7 & L8). split; [exact L1|]. split; [exact L2|]. split; [exact L3|].
  split; [rewrite app_length in *; lia|]. split; [exact L5|]. split; [exact L6|]. split.
  - intros E'. assert (length r = length t1) as Le. { apply (f_equal (@length BinNums.N)) in E'. rewrite app_length in E', L4. lia. } destruct (Same Le) as [-> ->].
    cbn [map]. rewrite !app_nil_r. apply L7, E'.
  - intros E'. destruct (Nat.eq_dec (length r) (length t1)) as [Le|Ne]; [|apply Ends, More; lia].
    destruct (Same Le) as [-> ->]. cbn [map]. rewrite app_nil_r. apply L8, E'.
Qed.

(** ** Where the text is closed *)
Lemma pth_none g c r : s_txt (tg_sou g) = c :: r -> ~ (tg_pth g = O /\ c = 41) -> stop_pth g = None.
Proof.
  intros E N. unfold stop_pth, sis. rewrite E. destruct (N.eqb_spec c ch_close) as [->|]; [|reflexivity]. cbn [andb].
  destruct (Nat.eqb_spec (tg_pth g) 0) as [Z|]; [|reflexivity]. destruct (N (conj Z eq_refl)).
Qed.
(** behind two commas *)
Lemma begins_two a b c r h w x : begins [a; b] (c :: r ++ (h :: w) ++ x) -> begins [a; b] (c :: r ++ h :: w).
Proof. intros [y E]. destruct r as [|z r]; cbn [app] in E; injection E as -> -> E; eexists; reflexivity. Qed.
Lemma comma_none g c r h w x : s_txt (tg_sou g) = c :: r ++ (h :: w) ++ x -> ~ name_char h -> ~ white h -> ~ closes_at DSemi (open_in g) (c :: r ++ h :: w) -> stop_comma g = None.
Proof.
  intros E Hn Hw N. cbn [closes_at] in N. change (lit ";;") with [59; 59] in *. change (lit ",,") with [44; 44] in *. unfold stop_comma, sstarts. rewrite E. change ps_DUALSEMI with [59; 59]. change ps_DUALCOMMA with [44; 44].
  assert (S1 : startswith [59; 59] (c :: r ++ (h :: w) ++ x) = false).
  { destruct (startswith _ _) eqn:X; [|reflexivity]. exfalso. apply N. left. apply startswith_spec in X. apply begins_two in X. exact X. }
  rewrite S1. cbv iota.
  assert (S2 : startswith [44; 44] (c :: r ++ (h :: w) ++ x) = false).
  { clear S1. destruct (startswith [44; 44] _) eqn:X; [|reflexivity]. exfalso. apply N. right. left. apply startswith_spec in X. apply begins_two in X. exact X. }
  rewrite S2. cbv iota. unfold sis at 1. rewrite E. destruct (N.eqb_spec c ch_bslash) as [->|Nb].
  + destruct (ps_atom (sfrom 1 (tg_sou g))) as [look [a|]] eqn:Ea; [|reflexivity].
    destruct (sis ch_close (gap look) && Nat.eqb (tg_pth g) 0) eqn:X; [|reflexivity]. exfalso. apply andb_true_iff in X as [X1 X2]. apply Nat.eqb_eq in X2.
    apply ps_atom_split in Ea as (Hi & _ & Es & _ & El). destruct (tg_sou g) as [tx f p]. cbn [s_txt] in E. subst tx. unfold sfrom in Es. cbn [s_txt s_file s_pos skipn] in Es. injection Es as Es.
    destruct (gap_split (s_txt look)) as (v & z & Ew & Fw & Sz). rewrite El, Ew in X1. rewrite gap_run in X1 by assumption. unfold sis in X1. cbn [s_txt] in X1.
    destruct z as [|y z]; [discriminate X1|]. apply N.eqb_eq in X1. subst y. rewrite Ew in Es.
    apply N. right. right. split; [exact X2|]. right. exists (s_txt a), v. split; [exact Hi|]. split; [exact Fw|].
    assert (B : begins (s_txt a ++ v) r).
    { apply (begins_prefix _ r h (w ++ x)).
      - rewrite !Forall_app. split; [eapply Forall_impl; [|apply ident_name_chars, Hi]; cbn; intros; intros ->; contradiction|]. eapply Forall_impl; [|exact Fw]; cbn; intros; intros ->; contradiction.
      - apply startswith_spec. exists (ch_close :: z). cbn [app] in Es. rewrite Es, <- !app_assoc. reflexivity. }
    destruct B as [y B]. rewrite B in Es. rewrite <- !app_assoc in Es. apply app_inv_head in Es. apply app_inv_head in Es. subst r.
    destruct y as [|y0 y]; cbn [app] in Es; injection Es as -> Es.
    * exists w. cbn [app]. rewrite <- !app_assoc. reflexivity.
    * exists (y ++ h :: w). cbn [app]. rewrite <- !app_assoc. reflexivity.
  + unfold sis. rewrite E. destruct (N.eqb_spec c ch_close) as [->|]; [|reflexivity]. cbn [andb]. destruct (Nat.eqb_spec (tg_pth g) 0) as [Z|]; [|reflexivity].
    exfalso. apply N. right. right. split; [exact Z|]. left. eexists. reflexivity.
Qed.
Lemma stop_none g c r : s_txt (tg_sou g) = c :: r ++ tail -> ~ closes_at dl (open_in g) (c :: r ++ closing dl) -> stop_of dl g = None.
Proof.
  intros E N. pose proof (proj2 Hrest) as Du. destruct dl as [| |ind| |w| | |]; cbn [stop_of closing] in *; cbn [closes_at] in N.
  - unfold stop_sq, sis. rewrite E. destruct (N.eqb_spec c ch_sq_close) as [->|]; [|reflexivity]. cbn [andb].
    destruct (Nat.eqb_spec (tg_sq g) 0) as [Z|]; [|reflexivity]. exfalso. apply N. split; [exact Z|]. eexists. reflexivity.
  - unfold stop_brace, sis. rewrite E. destruct (N.eqb_spec c ch_rbrace) as [->|]; [|reflexivity]. exfalso. apply N. eexists. reflexivity.
  - unfold stop_eol, ps_eol. rewrite E. destruct (ps_EOL c) eqn:Ec; [|reflexivity]. apply ps_EOL_spec in Ec.
    assert (X : exists b z, r = b ++ z /\ Forall blank b /\ stops_at blank z).
    { pose proof (longest_run_span ps_SPACE blank r ps_SPACE_spec) as (X1 & X2 & X3). eauto. }
    destruct X as (b & z & -> & Fb & Sz). destruct (tg_sou g) as [tx f p]. cbn [s_txt] in E. subst tx. unfold sfrom at 1. cbn [s_txt s_file s_pos skipn].
    rewrite <- !app_assoc. cbn [app]. rewrite space_blank; [|exact Fb|destruct z as [|y z]; cbn [app stops_at] in *; [unfold blank; lia|exact Sz]].
    assert (O : forall q, open_sq_bracket (Src (z ++ 10 :: (ind ++ lit "[") ++ rest) f q) = O).
    { intros q. unfold open_sq_bracket, sis, sstarts. cbn [s_txt]. destruct z as [|y z]; cbn [app].
      - reflexivity.
      - destruct (N.eqb_spec y ch_sq_open) as [->|Ny].
        + exfalso. apply N. exists c, b. split; [exact Ec|]. split; [exact Fb|]. left. eexists. rewrite <- !app_assoc. cbn [app]. rewrite <- !app_assoc. reflexivity.
        + change (lit "\[") with [92; 91]. cbn [startswith]. destruct (N.eqb_spec 92 y) as [<-|]; [|reflexivity]. cbn [andb].
          destruct z as [|w z]; [reflexivity|]. cbn [app]. destruct (N.eqb_spec 91 w) as [<-|]; [|reflexivity].
          exfalso. apply N. exists c, b. split; [exact Ec|]. split; [exact Fb|]. right. eexists. rewrite <- !app_assoc. cbn [app]. rewrite <- !app_assoc. reflexivity. }
    rewrite <- !app_assoc in O. cbn [app] in O. rewrite <- ?app_assoc. rewrite O. reflexivity.
  - apply (comma_none g c r 59 [59] rest); [exact E|chars|chars|exact N].
  - apply until_head in Du as (h & w' & -> & Hh). apply (comma_none g c r h w' rest); [exact E|chars|chars|exact N].
  - apply (pth_none g c (r ++ lit ")" ++ rest) E). intros [Z ->]. apply N. split; [exact Z|]. eexists. reflexivity.
  - apply (pth_none g c (r ++ lit ")" ++ rest) E). intros [Z ->]. apply N. split; [exact Z|]. eexists. reflexivity.
  - unfold stop_eof. rewrite E. reflexivity.
Qed.
Lemma comma_some g w p : delim_ok (DUntil w) -> tg_sou g = Src (w ++ rest) file p -> closes_at (DUntil w) (open_in g) w -> stop_comma g = Some (Src (w ++ rest) file p).
Proof.
  intros D Es M. unfold stop_comma. rewrite Es. cbn [closes_at open_in snd] in M. destruct D as [-> | [-> | (a & v & Ia & Fv & ->)]].
  - reflexivity.
  - assert (Z : tg_pth g = O) by (destruct M as [[x M]|[[x M]|[M _]]]; [discriminate M|discriminate M|exact M]). rewrite Z. reflexivity.
  - assert (Z : tg_pth g = O) by (destruct M as [[x M]|[[x M]|[M _]]]; [discriminate M|discriminate M|exact M]). rewrite Z.
    cbn [app]. rewrite <- !app_assoc. change (lit ")" ++ rest) with (41 :: rest).
    replace (sstarts ps_DUALSEMI _) with false by reflexivity. replace (sstarts ps_DUALCOMMA _) with false by reflexivity. cbv iota.
    rewrite sis_char. change (92 =? ch_bslash) with true. cbv iota. unfold sfrom. cbn [s_txt s_file s_pos skipn].
    rewrite ps_atom_ident; [|exact Ia|destruct Fv as [|b v B Fv]; cbn; chars].
    match goal with |- context [gap (Src (v ++ 41 :: rest) file ?pp)] => destruct (gap_over v 41 rest file pp Fv ltac:(chars)) as [q ->] end. reflexivity.
Qed.
Lemma stop_some g : (match dl with DBlock ind => Forall blank ind | _ => True end) -> s_txt (tg_sou g) = tail -> s_file (tg_sou g) = file -> may_end dl (open_in g) -> exists q, stop_of dl g = Some (Src (kept dl ++ rest) file q).
Proof.
  intros Dk E Ef M. pose proof (proj2 Hrest) as Du. destruct (tg_sou g) as [tx f p] eqn:Es. cbn [s_txt s_file] in E, Ef. subst tx f. destruct dl as [| |ind| |w| | |]; cbn [stop_of closing kept app] in *; try cbn [may_end] in M.
  - cbn [open_in fst] in M. unfold stop_sq, sis. rewrite Es, M. eexists. reflexivity.
  - unfold stop_brace, sis. rewrite Es. eexists. reflexivity.
  - unfold stop_eol, ps_eol. rewrite Es. cbn [s_txt app]. change (ps_EOL 10) with true. cbv iota. change (lit "[") with [91]. unfold sfrom. cbn [s_txt s_file s_pos skipn].
    rewrite <- app_assoc. cbn [app]. rewrite space_blank; [|exact Dk|cbn [stops_at]; unfold blank; lia].
    unfold open_sq_bracket. rewrite sis_char. change (91 =? ch_sq_open) with true. cbv iota. eexists. reflexivity.
  - unfold stop_comma. rewrite Es. eexists. reflexivity.
  - exists p. apply comma_some; assumption.
  - cbn [open_in snd] in M. unfold stop_pth, sis. rewrite Es, M. eexists. reflexivity.
  - cbn [open_in snd] in M. unfold stop_pth, sis. rewrite Es, M. eexists. reflexivity.
  - unfold stop_eof. rewrite Es. cbn [s_txt app]. rewrite (proj1 Hrest) by reflexivity. eexists. reflexivity.
Qed.
Lemma drive_doc k' d0 n : (forall g, k_next k' g = text_next cx imp k g) -> (match dl with DBlock ind => Forall blank ind | _ => True end) ->
  forall g s t, at_point d0 g t -> (tg_started g = true -> t <> []) ->
  (length t <= size)%nat -> (length t + (if tg_started g then 0 else 1) < n)%nat ->
  exists q g', drive n k' (stop_of dl) g s = Ok (Src (kept dl ++ rest) file q, g', s) /\ stands_for (tg_ast g') d0.
Proof.
  intros Hk Dk. induction n as [|n IH]; intros g s t A St L Ln; [lia|]. cbn [drive]. rewrite Hk.
  destruct (text_next_doc d0 g s t A St L) as (g' & t' & E & A' & S' & L'). rewrite (bind_ok _ _ _ _ _ E).
  pose proof A' as A2. destruct A2 as (d1 & d2 & S1 & _ & Ed & Et & Ef & R). rewrite S' in R. destruct t' as [|c r]; cbn [stopped] in R.
  - destruct R as [-> M]. destruct (stop_some g' Dk Et Ef M) as [q ->]. eexists _, _. split; [reflexivity|]. rewrite Ed, app_nil_r. exact S1.
  - destruct R as (_ & N & _). rewrite (stop_none g' c r Et N). apply (IH g' s (c :: r)); [exact A'|discriminate| |]; rewrite ?S'; destruct (tg_started g); lia.
Qed.
End Doc.

(** ** All forms and texts *)
Section Knot.
Variables (cx : pctx) (imp : text -> M (list node)).
Notation py := (c_python cx).
Notation md := (c_skip cx).
Lemma knot_close m : closes (knot cx imp (S m)).
Proof. intros f p s r. cbn [knot k_form]. apply (close_none cx _ 0); [intros e t _ L; lia|intros dl t d _ _ L; lia]. Qed.
Lemma knot_both m : (forall e t, spelled py md e t -> (length t <= m)%nat -> form_reads (knot cx imp (S m)) e t) /\
  (forall dl t d, delim_ok dl -> written py md dl level t d -> (length t < m)%nat -> text_reads (knot cx imp (S m)) dl t d).
Proof.
  induction m as [|m [IH1 IH2]].
  - split; [|intros; lia]. intros e t W L. apply spelled_head in W as (c & r & E & _). rewrite E in L. cbn in L. lia.
  - assert (Hf : forall e t, spelled py md e t -> (length t < S m)%nat -> form_reads (knot cx imp (S m)) e t) by (intros e t W L; apply IH1; [exact W|lia]).
    assert (Ht : forall dl t d, delim_ok dl -> written py md dl level t d -> (S (length t) < S m)%nat -> text_reads (knot cx imp (S m)) dl t d) by (intros dl t d D W L; apply IH2; [exact D|exact W|lia]).
    split.
    + intros e t W L f p s rest Fo Nb. change (k_form (knot cx imp (S (S m)))) with (ps_form cx (knot cx imp (S m))).
      exact (form_ok cx (knot cx imp (S m)) (S m) Hf (knot_close m) Ht e t f p s rest W L Fo Nb).
    + intros dl t d D W L f p s rest. unfold drive_text.
      assert (Hr : fits dl rest) by (split; [intros ->; destruct D|destruct dl; try exact Logic.I; exact D]).
      destruct (drive_doc cx imp (knot cx imp (S m)) (S m) Hf (knot_close m) Ht dl rest Hr f (knot cx imp (S (S m))) d (S (S (length (s_txt (Src (t ++ closing dl ++ rest) f p)))))) with (g := text_start (Src (t ++ closing dl ++ rest) f p)) (s := s) (t := t) as (q & g & E & S1).
      * reflexivity.
      * destruct dl; try exact Logic.I. exact D.
      * exists [], d. cbn [text_start tg_ast tg_started tg_sou tg_sq s_txt s_file]. split; [reflexivity|]. split; [split; [reflexivity|left; reflexivity]|]. repeat split. exact W.
      * discriminate.
      * lia.
      * cbn [text_start tg_started s_txt]. rewrite app_length. lia.
      * exists g, q. split; [exact E|exact S1].
Qed.
Lemma knot_reads m e t : spelled py md e t -> (length t <= m)%nat -> form_reads (knot cx imp (S m)) e t.
Proof. apply knot_both. Qed.
Lemma knot_texts m dl t d : delim_ok dl -> written py md dl level t d -> (length t < m)%nat -> text_reads (knot cx imp (S m)) dl t d.
Proof. apply knot_both. Qed.
End Knot.

Lemma doc_nil python m k sq d : written python m k sq [] d -> d = [].
Proof.
  intros P. remember [] as t eqn:E. destruct P as [k0 sq Me|k0 sq c' r' d P N1 N2 B1 B2 K Z Cl H|k0 sq q body r' d Py Q L H|k0 sq w r' d Py L H|k0 sq cm r' d T H|k0 sq o body r' d Qo P B H|k0 sq c0 t r' d W H]; try discriminate E.
  - reflexivity.
  - apply app_eq_nil in E as [-> _]. destruct (literal_head _ _ L) as (c & x & X & _). discriminate X.
  - apply app_eq_nil in E as [-> _]. inversion T.
  - destruct Qo as [-> | ->]; discriminate E.
  - apply app_eq_nil in E as [-> _]. apply (construct_head (Ctx python m [] [] (fun _ => None) (fun x => x) (fun _ => Ok tt) (fun x => Ok x) (fun _ => []))) in W as (y & W). discriminate W.
Qed.
Lemma parse_document cx d key s decl t c : document (c_python cx) (c_skip cx) t c -> no_header cx key t ->
  dict_get key (y_source s) = Some (decl, t) ->
  exists l, yuparse cx (S d) key s = Ok (l, s) /\ stands_for l c.
Proof.
  intros P H D. destruct t as [|a t].
  { exists []. cbn [yuparse]. unfold yuparse_with, bind, get_st. rewrite D. split; [reflexivity|].
    rewrite (doc_nil _ _ _ _ _ P). reflexivity. }
  set (t1 := a :: t) in *.
  assert (Hd : (if teqb (c_main cx) key && c_python cx then ps_header_python (Src t1 (Some key) 0) else ret (Src t1 (Some key) 0, None)) s
               = Ok (Src t1 (Some key) 0, None, s)).
  { destruct H as [H|[H|H]].
    - rewrite H, andb_false_r. reflexivity.
    - replace (teqb (c_main cx) key) with false by (symmetry; apply teqb_neq; congruence). reflexivity.
    - destruct (_ && _); [apply H|reflexivity]. }
  cbn [yuparse]. unfold yuparse_with. unfold bind at 1, get_st. rewrite D. unfold t1 at 1. cbv iota. fold t1.
  rewrite (bind_ok _ _ _ _ _ Hd). cbn [s_txt]. unfold t1 at 1. cbv iota.
  set (K := knot cx (yuparse cx d) (S (length t))).
  destruct (drive_doc cx (yuparse cx d) K (S (length t)) (fun e u W L => knot_reads cx _ (length t) e u W (le_S_n _ _ L)) (knot_close cx _ (length t)) (fun dl u x Dk W L => knot_texts cx _ (length t) dl u x Dk W (le_S_n _ _ L)) DSource [] (conj (fun _ => eq_refl) Logic.I) (Some key)
    (knot cx (yuparse cx d) (S (S (length t)))) c (S (S (length t1)))) with (g := text_start (Src t1 (Some key) 0)) (s := s) (t := t1) as (q & g & E & S1).
  - reflexivity.
  - exact Logic.I.
  - exists [], c. cbn [text_start tg_ast tg_started tg_sou s_txt s_file tg_sq]. split; [reflexivity|]. split; [split; [reflexivity|left; reflexivity]|]. repeat split; [|exact P]. cbn [closing app]. rewrite app_nil_r. reflexivity.
  - discriminate.
  - unfold t1. cbn. lia.
  - cbn [text_start tg_started]. lia.
  - unfold drive_text. cbn [s_txt]. change (length t1) with (S (length t)) at 1. cbn [stop_of] in E. rewrite (bind_ok _ _ _ _ _ E). eexists. split; [reflexivity|exact S1].
Qed.
