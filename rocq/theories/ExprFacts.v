(** * Reading back written expressions: the pieces *)
From Coq Require Import List NArith ZArith Bool Lia ZifyBool ZifyNat ZifyN.
From Verif Require Import PyStr PyStrFacts Ast Lex LexSpec LexFacts LexFacts2 NumFacts Parse ProtectSpec PyLitFacts ProtectFacts ExprSpec.
Import ListNotations.
Open Scope N_scope.
Open Scope monad_scope.

Lemma bind_ok {A B} (m : M A) (g : A -> M B) s a s' : m s = Ok (a, s') -> bind m g s = g a s'.
Proof. intros E. unfold bind. rewrite E. reflexivity. Qed.
Lemma lift_ok {A} (r : res A) a s : r = Ok a -> lift r s = Ok (a, s).
Proof. intros ->. reflexivity. Qed.

(** ** Heads *)
Definition head_char (c : char) : Prop := letter c \/ decimal_digit c \/ c = 45 \/ c = 43 \/ c = 34 \/ c = 39 \/ c = 40 \/ c = 38 \/ c = 92 \/ c = 91 \/ c = 93 \/ c = 123 \/ c = 44.
Ltac chars := unfold head_char, name_char, letter, decimal_digit, white, blank, line_end, ch_open, ch_close, ch_sq_open, ch_sq_close, ch_lbrace, ch_rbrace, ch_bslash, ch_dollar, ch_star, ch_amp, ch_colon, ch_dotc, ch_quest, ch_bar, ch_hash, ch_dquote, ch_squote in *; lia.

Lemma Z_text_head z : exists c r, Z_text z = c :: r /\ (decimal_digit c \/ c = 45).
Proof.
  destruct z as [|q|q]; cbn [Z_text].
  - exists 48, []. split; [reflexivity|left; chars].
  - pose proof (pos_text_literal q) as H. pose proof (uint_text_digits (Pos.to_uint q)) as F.
    destruct (uint_text (Pos.to_uint q)) as [|c r]; [inversion H|]. exists c, r. split; [reflexivity|left]. exact (Forall_inv F).
  - eauto.
Qed.
Lemma ident_head a : identifier a -> exists c r, a = c :: r /\ letter c.
Proof. destruct a as [|c r]; [intros []|]. intros [H _]. eauto. Qed.
Lemma var_head v : var_ok v -> exists c r, show_var v = c :: r /\ (letter c \/ c = 38).
Proof.
  destruct v as [reg a|a]; cbn [var_ok show_var].
  - intros [H I]. destruct H as [|x reg X H].
    + apply ident_head in I as (c & r & -> & L). exists c, r. split; [reflexivity|left; exact L].
    + apply ident_head in X as (c & r & -> & L). eexists c, _. split; [reflexivity|left; exact L].
  - intros _. eexists _, _. split; [reflexivity|right; reflexivity].
Qed.
Definition opens_lform (c : char) : Prop := c = 40 \/ c = 91 \/ c = 93 \/ c = 123 \/ c = 44.
Lemma opening_head k : delim_ok k -> exists c r, opening k = c :: r /\ opens_lform c.
Proof. unfold opens_lform. destruct k; cbn [delim_ok opening]; intros H; [exists 91, []|exists 123, []|exists 93, [10]|exists 44, [44]|exists 44, [44]|exists 40, (lit "$code")|exists 40, (lit "${}")|destruct H]; (split; [reflexivity|lia]). Qed.
Lemma opens_head k o : delim_ok k -> opens k o -> exists c r, o = c :: r /\ opens_lform c.
Proof. intros D O. destruct O as [k0|ind b c B L]; [apply opening_head, D|]. eexists _, _. split; [reflexivity|]. unfold opens_lform. lia. Qed.
Lemma lform_head python m e t : spelled python m e t -> is_lform e = true -> exists c r, t = c :: r /\ opens_lform c.
Proof.
  intros [sg sf w v suf S1 S2 S3|q body Py Q Li|w Py Li|o body Q P B|v V|l u It|ev tight f args named g u r G Sf Fo K Ar|ps body u r N P Sb I|v body g1 g2 g3 r V G1 G2 G3 Sb I|b e0 body g1 w g2 u g3 u2 z G1 Bt G2 Se G3 Sb Cb Be Fe Fb|c e1 t1 g1 g2 u S1 I1 G1 G2 Sc Ic Fo|c e1 e0 t1 g1 g2 u g3 g4 t0 S1 I1 G1 G2 Sc Ic Fo G3 G4 S0 Fc|k o u d D O W]; try discriminate; intros _;
    try (eexists 40, _; split; [reflexivity|left; reflexivity]).
  apply (opens_head k o D) in O as (c & r & -> & H). eexists _, _. split; [reflexivity|exact H].
Qed.
Lemma late_head late w a r : late_text late w -> exists r', w ++ 92 :: a ++ r = 92 :: r'.
Proof. intros [|b l g u I G L]; eexists; reflexivity. Qed.
Lemma params_head python m ps t : parameters python m ps t -> ps <> [] -> exists r, t = 92 :: r.
Proof.
  intros [|late w a qs g r L I G P|late w a e u g1 g2 qs r L I Se G1 F G2 P|g qs r G P] N; [contradiction N; reflexivity| | |eexists; reflexivity].
  - destruct (late_head late w a (46 :: g ++ r) L) as [r' E]. exists r'. exact E.
  - destruct (late_head late w a (58 :: u ++ g1 ++ 46 :: g2 ++ r) L) as [r' E]. exists r'. exact E.
Qed.
Lemma sign_head sg sf w v suf : sign_of sg sf -> int_literal w v -> exists c r, sg ++ w ++ suf = c :: r /\ (decimal_digit c \/ c = 45 \/ c = 43).
Proof.
  intros S1 L. assert (H : exists c r, w = c :: r /\ decimal_digit c) by (destruct L; eexists _, _; (split; [reflexivity|]); [assumption|chars..]).
  destruct H as (c & r & -> & H). destruct S1; eexists _, _; (split; [reflexivity|]); auto.
Qed.
Lemma literal_begins w r : python_literal w r -> exists c x, w = c :: x /\ (letter c \/ c = 34 \/ c = 39).
Proof. intros H. apply literal_head in H as (c & x & -> & H). exists c, x. split; [reflexivity|]. chars. Qed.
Lemma spelled_head python m e t : spelled python m e t -> exists c r, t = c :: r /\ head_char c.
Proof.
  induction 1 as [sg sf w v suf S1 S2 S3|q body Py Q Li|w Py Li|o body Q P B|v V|l u It|ev tight f args named g u r G Sf IHf Fo K Ar|ps body u r N P Sb IHb I|v body g1 g2 g3 r V G1 G2 G3 Sb IHb I|b e0 body g1 w g2 u g3 u2 z G1 Bt G2 Se IHe G3 Sb IHb Cb Be Fe Fb|c e1 t1 g1 g2 u S1 IH1 I1 G1 G2 Sc IHc Ic Fo|c e1 e0 t1 g1 g2 u g3 g4 t0 S1 IH1 I1 G1 G2 Sc IHc Ic Fo G3 G4 S0 IH0 Fc|k o u d D O W].
  - destruct (sign_head sg sf w v suf S1 S2) as (c & r & -> & H). exists c, r. split; [reflexivity|]. chars.
  - exists q, (body ++ [q]). split; [reflexivity|]. chars.
  - apply literal_begins in Li as (c & x & -> & H). exists c, x. split; [reflexivity|]. chars.
  - destruct Q as [-> | ->]; eexists 40, _; (split; [reflexivity|]); chars.
  - apply var_head in V as (c & r & -> & H). exists c, r. split; [reflexivity|]. chars.
  - eexists 40, _. split; [reflexivity|]. chars.
  - eexists 40, _. split; [reflexivity|]. chars.
  - apply params_head in P as [x ->]; [|exact N]. eexists 92, _. split; [reflexivity|]. chars.
  - eexists 92, _. split; [reflexivity|]. chars.
  - eexists 40, _. split; [reflexivity|]. chars.
  - destruct IH1 as (x & r & -> & H). eexists _, _. split; [reflexivity|exact H].
  - destruct IH1 as (x & r & -> & H). eexists _, _. split; [reflexivity|exact H].
  - apply (opens_head k o D) in O as (c & r & -> & H). eexists _, _. split; [reflexivity|]. unfold opens_lform in H. chars.
Qed.

(** ** What follows *)
Definition after (r : text) : Prop := delimited r /\ no_branch r.
Lemma no_branch_gap g c r : Forall white g -> ~ white c -> c <> 63 -> c <> 124 -> no_branch (g ++ c :: r).
Proof.
  intros G W Q B. induction G as [|a g A G IH]; intros [|b h] c' r' E F; cbn in E; injection E as <- E.
  - auto.
  - exfalso. apply W, (Forall_inv F).
  - chars.
  - exact (IH h c' r' E (Forall_inv_tail F)).
Qed.
Lemma after_char c r : ~ white c -> ~ name_char c -> c <> 58 -> c <> 34 -> c <> 39 -> c <> 46 -> c <> 63 -> c <> 124 -> after (c :: r).
Proof.
  intros W N A1 A2 A3 A4 A5 A6. split; [split; [cbn; chars|congruence]|].
  intros [|a g] c' r' E F; cbn in E; inversion E; subst; [auto|]. exfalso. apply W. apply Forall_inv in F. exact F.
Qed.
Lemma after_close r : after (41 :: r).
Proof. apply after_char; chars. Qed.
Lemma delimited_gap g c r : Forall white g -> ~ name_char c -> c <> 58 -> c <> 34 -> c <> 39 -> c <> 46 -> delimited (g ++ c :: r).
Proof.
  intros G N A1 A2 A3 A4. destruct G as [|a g A G]; cbn [app]; (split; [cbn; chars|]).
  - congruence.
  - intros d r' E. injection E as -> _. exfalso. chars.
Qed.
Lemma delimited_more r rest : delimited r -> r <> [] -> r <> [46] -> delimited (r ++ rest).
Proof.
  intros [A B] N M. destruct r as [|c [|d r]]; [congruence| |]; (split; [exact A|]); intros d' r' E; cbn [app] in E.
  - injection E as -> _. congruence.
  - injection E as -> -> _. exact (B d' r eq_refl).
Qed.
Lemma begins_more (w r rest : text) : begins w r -> begins w (r ++ rest).
Proof. intros [x ->]. exists (x ++ rest). rewrite <- app_assoc. reflexivity. Qed.
Fixpoint follows_more e r rest {struct e} : follows e r -> r <> [] -> r <> [46] -> follows e (r ++ rest).
Proof.
  destruct e as [z|q body|w|body|v|l|ev g args named|ps body|v body|b e body|c e1 [e0|]|[] t d]; cbn [follows]; intros F N M; try exact F; try (apply delimited_more; assumption).
  - apply follows_more; assumption.
  - apply follows_more; assumption.
  - apply follows_more; assumption.
  - apply follows_more; assumption.
  - apply begins_more, F.
Qed.
Lemma delimited_dot g r : delimited (g ++ [46]) -> Forall white g -> stops_at decimal_digit r -> delimited (g ++ 46 :: r).
Proof.
  intros [A B] G S. destruct G as [|a g A' G]; cbn [app] in *; (split; [exact A|]); intros d r' E; inversion E; subst; [exact S|chars].
Qed.
Fixpoint follows_dot e g r {struct e} : follows e (g ++ [46]) -> Forall white g -> stops_at decimal_digit r -> follows e (g ++ 46 :: r).
Proof.
  destruct e as [z|q body|w|body|v|l|ev g0 args named|ps body|v body|b e body|c e1 [e0|]|[] t d]; cbn [follows]; intros F N M; try exact F; try (apply delimited_dot; assumption).
  - apply follows_dot; assumption.
  - apply follows_dot; assumption.
  - apply follows_dot; assumption.
  - apply follows_dot; assumption.
  - replace (g ++ 46 :: r) with ((g ++ [46]) ++ r) by (rewrite <- app_assoc; reflexivity). apply begins_more, F.
Qed.

Lemma gap_split t : exists g r, t = g ++ r /\ Forall white g /\ stops_at white r.
Proof.
  pose proof (longest_run_span (fun c => ps_EOL c || ps_SPACE c) white t white_spec) as (E & F & S'). eauto.
Qed.
Lemma gap_gap s : gap (gap s) = gap s.
Proof.
  destruct s as [t f p]. destruct (gap_split t) as (g & r & -> & F & S'). rewrite (gap_run g r f p F S').
  apply gap_none. exact S'.
Qed.
Lemma gap_over g c r f p : Forall white g -> ~ white c -> exists q, gap (Src (g ++ c :: r) f p) = Src (c :: r) f q.
Proof. intros G W. eexists. apply gap_run; [exact G|exact W]. Qed.
Lemma gap_space c r f p : ~ white c -> gap (Src (32 :: c :: r) f p) = Src (c :: r) f (p + 1).
Proof. intros W. apply (gap_run [32] (c :: r) f p); [repeat constructor|exact W]. Qed.
Lemma gap_char c r f p : ~ white c -> gap (Src (c :: r) f p) = Src (c :: r) f p.
Proof. intros W. apply gap_none. exact W. Qed.
Lemma gap_head_not c r f p : no_branch r -> c = 63 \/ c = 124 -> sis c (gap (Src r f p)) = false.
Proof.
  intros H C. destruct (gap_split r) as (g & r' & -> & F & S'). rewrite (gap_run g r' f p F S').
  unfold sis. cbn [s_txt]. destruct r' as [|x r']; [reflexivity|]. destruct (H g x r' eq_refl F). lia.
Qed.

(** ** Texts at which the rules of the lexical level do not apply *)
Lemma delimited_number r : delimited r -> number_ends r.
Proof. intros [H D]. split; [|exact D]. destruct r as [|c r]; [exact I|]. cbn in *. chars. Qed.
Lemma delimited_name r : delimited r -> stops_at name_char r.
Proof. intros [H D]. destruct r as [|c r]; [exact I|]. cbn in *. chars. Qed.
Lemma delimited_colons r f p : delimited r -> sstarts (lit "::") (Src r f p) = false.
Proof.
  intros [H D]. unfold sstarts. cbn [s_txt]. destruct r as [|c r]; [reflexivity|].
  change (lit "::") with [58; 58]. cbn [startswith]. cbn in H. replace (58 =? c) with false by chars. reflexivity.
Qed.

Lemma no_number c r f p : ~ decimal_digit c -> c <> 43 -> c <> 45 -> ~ white c -> ps_number (Src (c :: r) f p) = Ok (Src (c :: r) f p, None).
Proof.
  intros D S1 S2 W. unfold ps_number. cbn [s_txt].
  assert (K : forall sp, sp c = false -> sign_space_len sp (c :: r) = O).
  { intros sp E. unfold sign_space_len, opt_len, is_sign. replace ((c =? 43) || (c =? 45)) with false by lia.
    cbn [skipn span_len]. rewrite E. reflexivity. }
  unfold re_FLOAT. rewrite K by chars. cbn [skipn span_len]. unfold is_digit at 1. replace ((48 <=? c) && (c <=? 57)) with false by chars.
  unfold re_INT. rewrite K by (unfold ps_SPACE; chars). cbn [skipn int_body_len]. replace (c =? 48) with false by chars.
  unfold is_digit at 1. replace ((48 <=? c) && (c <=? 57)) with false by chars. reflexivity.
Qed.

Definition quotes (c : char) : Prop := c = 34 \/ c = 39.
(** No Python string begins at a text whose longest name is not followed by a quote. *)
Lemma no_py_string t : (forall a q r, t = a ++ q :: r -> Forall letter a -> ~ quotes q) -> py_string_len t = Ok None.
Proof.
  intros H. apply no_string. intros (p & q & r & P & Q & E). refine (H p q r E _ Q).
  destruct P; repeat (apply Forall_cons; [chars|]); apply Forall_nil.
Qed.
Lemma no_c_literal q c r : c <> q -> c_literal q (c :: r) = None.
Proof. intros H. unfold c_literal. replace (c =? q) with false by lia. reflexivity. Qed.
Lemma no_quote_at py c r f p : ~ quotes c -> c <> 40 ->
  (forall a q r', c :: r = a ++ q :: r' -> Forall letter a -> ~ quotes q) ->
  ps_quote py (Src (c :: r) f p) = Ok (Src (c :: r) f p, None).
Proof.
  intros Q O H.
  assert (B : ps_backquote (Src (c :: r) f p) = Ok (Src (c :: r) f p, None)).
  { unfold ps_backquote, sstarts. cbn [s_txt]. change ps_BQUOTE with [40; 96]. change ps_QUOTE with (40 :: lit "$quote").
    cbn [startswith]. replace (40 =? c) with false by lia. reflexivity. }
  unfold ps_quote. unfold quotes in Q. destruct py.
  - unfold ps_string_python. cbn [s_txt]. rewrite no_py_string by exact H. exact B.
  - cbn [s_txt]. rewrite !no_c_literal by chars. exact B.
Qed.
(** parentheses that open no quotation *)
Lemma no_quote_paren py r f p : startswith ps_BQUOTE (40 :: r) = false -> startswith ps_QUOTE (40 :: r) = false ->
  ps_quote py (Src (40 :: r) f p) = Ok (Src (40 :: r) f p, None).
Proof. intros A B. rewrite ps_quote_paren. unfold ps_backquote, sstarts. cbn [s_txt]. rewrite A, B. reflexivity. Qed.
Lemma no_variable c r f p : ~ letter c -> c <> 38 -> ps_variable (Src (c :: r) f p) = Ok (Src (c :: r) f p, None).
Proof.
  intros L A. unfold ps_variable, sis. cbn [s_txt]. replace (c =? ch_amp) with false by chars.
  rewrite ps_atom_none by exact L. reflexivity.
Qed.

(** ** Variables *)
Lemma colon_not_name t : stops_at name_char (58 :: t).
Proof. cbn. chars. Qed.
Lemma colon_not_string t : stops_at (fun c => letter c \/ quotes c) (58 :: t).
Proof. cbn. unfold quotes. chars. Qed.
Lemma variable_loop_ok reg : forall n acc leg a f p rest,
  Forall identifier reg -> identifier a -> delimited rest -> (length reg + 1 < n)%nat ->
  exists xs x q, variable_loop n acc leg (Src (flat_map (fun r => lit "::" ++ r) (reg ++ [a]) ++ rest) f p) = Ok (Src rest f q, Some (RList (acc ++ leg :: xs), x))
    /\ map bare_src xs = map raw reg /\ bare_src x = raw a.
Proof.
  induction reg as [|x reg IH]; intros n acc leg a f p rest F A D L; (destruct n as [|n]; [lia|]); cbn [app flat_map variable_loop].
  - rewrite app_nil_r. change (lit "::" ++ a) with (58 :: 58 :: a). cbn [app]. unfold sstarts at 1. cbn [s_txt]. change (startswith (lit "::") (58 :: 58 :: a ++ rest)) with true. cbv iota.
    unfold sfrom at 1. cbn [s_txt s_file s_pos skipn]. rewrite ps_atom_ident by (try assumption; apply delimited_name, D).
    destruct n as [|n]; [cbn in L; lia|]. cbn [variable_loop]. rewrite delimited_colons by exact D.
    exists []. eexists _, _. split; [reflexivity|]. split; reflexivity.
  - change (lit "::" ++ x) with (58 :: 58 :: x). cbn [app]. unfold sstarts at 1. cbn [s_txt].
    match goal with |- context [startswith (lit "::") (58 :: 58 :: ?t)] => change (startswith (lit "::") (58 :: 58 :: t)) with true end. cbv iota.
    unfold sfrom at 1. cbn [s_txt s_file s_pos skipn]. rewrite <- !app_assoc.
    rewrite ps_atom_ident; [|exact (Forall_inv F)|destruct reg; apply colon_not_name].
    match goal with |- context [variable_loop n _ ?l (Src _ f ?pp)] =>
      destruct (IH n (acc ++ [leg]) l a f pp rest (Forall_inv_tail F) A D ltac:(cbn in L; lia)) as (xs & y & q & E & E1 & E2) end.
    rewrite E. eexists (_ :: xs), y, q. rewrite <- app_assoc. cbn [map]. rewrite E1. split; [reflexivity|]. split; [reflexivity|exact E2].
Qed.
Lemma region_shift reg a : flat_map (fun r : text => r ++ lit "::") reg ++ a =
  match reg with [] => a | x :: reg' => x ++ flat_map (fun r => lit "::" ++ r) (reg' ++ [a]) end.
Proof.
  destruct reg as [|x reg]; [reflexivity|]. revert x. induction reg as [|y reg IH]; intros x.
  - cbn [flat_map app]. rewrite !app_nil_r, <- !app_assoc. reflexivity.
  - cbn [flat_map]. rewrite <- !app_assoc. f_equal. cbn [app flat_map]. rewrite <- !app_assoc. do 2 f_equal.
    specialize (IH y). cbn [flat_map] in IH. rewrite <- !app_assoc in IH. apply app_inv_head in IH. exact IH.
Qed.
Lemma variable_ok v f p rest : var_ok v -> delimited rest ->
  exists r a q, ps_variable (Src (show_var v ++ rest) f p) = Ok (Src rest f q, Some (r, a)) /\ bare_region r = tree_region v /\ bare_src a = tree_name v.
Proof.
  intros V D. pose proof (delimited_name _ D) as N. destruct v as [reg a|a]; cbn [show_var var_ok tree_region tree_name] in *.
  - destruct V as [F A]. unfold ps_variable. rewrite region_shift. destruct reg as [|x reg].
    + pose proof A as A'. apply ident_head in A' as (c & r & E & L). unfold sis. cbn [s_txt]. rewrite E. cbn [app].
      replace (c =? ch_amp) with false by chars. change (c :: r ++ rest) with ((c :: r) ++ rest). rewrite <- E.
      rewrite ps_atom_ident by assumption. cbn [s_txt variable_loop]. rewrite delimited_colons by exact D.
      eexists _, _, _. split; [reflexivity|]. split; reflexivity.
    + pose proof (Forall_inv F) as X. apply ident_head in X as (c & r & E & L). rewrite <- app_assoc. unfold sis. cbn [s_txt]. rewrite E. cbn [app].
      replace (c =? ch_amp) with false by chars.
      rewrite app_comm_cons, <- E.
      rewrite ps_atom_ident; [|exact (Forall_inv F)|destruct reg; apply colon_not_name]. cbn [s_txt].
      match goal with |- context [variable_loop ?n [] ?leg (Src _ f ?pp)] =>
        destruct (variable_loop_ok reg n [] leg a f pp rest (Forall_inv_tail F) A D) as (xs & y & q & E' & E1 & E2) end.
      { rewrite app_length, flat_map_app, app_length. cbn [flat_map]. rewrite app_nil_r. cbn [lit app length].
        assert (K : (length reg <= length (flat_map (fun r => lit "::" ++ r) reg))%nat).
        { clear. induction reg as [|z reg IH]; cbn [flat_map length]; [lia|]. change (lit "::" ++ z) with (58 :: 58 :: z). cbn [app length]. rewrite app_length. lia. }
        change (lit "::" ++ a) with (58 :: 58 :: a). cbn [length]. lia. }
      rewrite E'. exists (RList (Src x f p :: xs)), y, q. split; [reflexivity|]. cbn [bare_region map]. rewrite E1. split; [reflexivity|exact E2].
  - unfold ps_variable, sis. cbn [s_txt app]. change (38 =? ch_amp) with true. cbv iota. unfold sfrom at 1. cbn [s_txt s_file s_pos skipn].
    rewrite ps_atom_ident by assumption. eexists _, _, _. split; [reflexivity|]. split; reflexivity.
Qed.
(** no string begins at a variable *)
Lemma letters_split a b q r rest : Forall letter b -> stops_at letter rest -> Forall letter a -> b ++ rest = a ++ q :: r -> ~ letter q ->
  a = b /\ rest = q :: r.
Proof.
  revert b. induction a as [|x a IH]; intros b B R A E Q.
  - destruct b as [|y b]; [split; [reflexivity|exact E]|]. injection E as -> _. exfalso. apply Q, (Forall_inv B).
  - destruct b as [|y b].
    + exfalso. cbn in E. subst rest. cbn in R. apply R, (Forall_inv A).
    + injection E as -> E. destruct (IH b (Forall_inv_tail B) R (Forall_inv_tail A) E Q) as [-> ->]. split; reflexivity.
Qed.
Lemma name_no_string a rest : Forall name_char a -> stops_at (fun c => letter c \/ quotes c) rest -> forall b q r, a ++ rest = b ++ q :: r -> Forall letter b -> ~ quotes q.
Proof.
  revert rest. induction a as [|x a IH]; intros rest A R b q r E B Q.
  - destruct b as [|y b]; cbn in E; subst rest; cbn in R; [apply R; right; exact Q|apply R; left; exact (Forall_inv B)].
  - destruct b as [|y b]; cbn in E; injection E as -> E.
    + apply Forall_inv in A. unfold quotes in Q. chars.
    + exact (IH rest (Forall_inv_tail A) R b q r E (Forall_inv_tail B) Q).
Qed.
Lemma ident_name_chars a : identifier a -> Forall name_char a.
Proof. destruct a as [|c r]; [intros []|]. intros [H F]. constructor; [left; exact H|exact F]. Qed.
Lemma variable_no_quote py v f p rest : var_ok v -> delimited rest -> ps_quote py (Src (show_var v ++ rest) f p) = Ok (Src (show_var v ++ rest) f p, None).
Proof.
  intros V D. pose proof V as V'. apply var_head in V' as (c & r & E & H). rewrite E. cbn [app]. apply no_quote_at.
  - unfold quotes. chars.
  - chars.
  - rewrite app_comm_cons, <- E. destruct v as [reg a|a]; cbn [show_var var_ok] in *.
    + destruct V as [F A]. rewrite region_shift. destruct reg as [|x reg].
      * apply name_no_string; [apply ident_name_chars, A|]. destruct D as [D _]. destruct rest as [|d rest]; [exact I|]. cbn in *. unfold quotes. chars.
      * rewrite <- app_assoc. apply name_no_string; [apply ident_name_chars, (Forall_inv F)|]. destruct reg; apply colon_not_string.
    + injection E as <- _. intros [|y b] q r' E' B; injection E' as <- _; unfold quotes; [chars|]. apply Forall_inv in B. chars.
Qed.
