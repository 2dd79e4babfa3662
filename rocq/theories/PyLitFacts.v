(** String literals of Python are read whole (proofs only). *)
From Coq Require Import List NArith ZArith Bool Lia ZifyBool ZifyNat ZifyN.
From Verif Require Import PyStr PyStrFacts Ast Lex LexSpec ProtectSpec.
Import ListNotations.
Open Scope N_scope.

(** ** Lines *)
Definition one_line (t : text) : Prop := ~ In 10 t.
Definition first_line (t : text) : text := firstn (getline_len t) t.
Lemma line_cut t : one_line t \/ exists a b, t = a ++ 10 :: b /\ one_line a.
Proof.
  induction t as [|c t IH]; [left; intros []|]. destruct (N.eq_dec c 10) as [->|Hc].
  - right. exists [], t. split; [reflexivity|intros []].
  - destruct IH as [IH|(a & b & -> & Ha)].
    + left. intros [E|E]; [congruence|contradiction].
    + right. exists (c :: a), b. split; [reflexivity|]. intros [E|E]; [congruence|contradiction].
Qed.
Lemma first_line_cut a b : one_line a -> first_line (a ++ 10 :: b) = a ++ [10] /\ getline_len (a ++ 10 :: b) = S (length a).
Proof.
  unfold first_line. induction a as [|c a IH]; intros Ha; cbn [app getline_len]; [split; reflexivity|].
  replace (c =? 10) with false by (symmetry; apply N.eqb_neq; intros E; apply Ha; left; auto).
  destruct IH as [I1 I2]; [intros X; apply Ha; right; exact X|]. cbn [firstn length]. rewrite I1, I2. split; reflexivity.
Qed.
(** the first line of a text that begins with a part without line end *)
Lemma first_line_app a b : one_line a -> exists x, first_line (a ++ b) = a ++ x /\ x = first_line b.
Proof.
  unfold first_line. induction a as [|c a IH]; intros Ha; [exists (first_line b); split; reflexivity|].
  cbn [app getline_len]. replace (c =? 10) with false by (symmetry; apply N.eqb_neq; intros E; apply Ha; left; auto).
  destruct IH as (x & I1 & I2); [intros X; apply Ha; right; exact X|]. cbn [firstn]. rewrite I1. exists x. auto.
Qed.
Lemma first_line_head c r x y : first_line r = x :: y -> ~ begins [c] r -> x <> c.
Proof.
  unfold first_line. destruct r as [|z r]; [discriminate|]. cbn [getline_len]. intros E B.
  assert (z = x) by (destruct (z =? 10); cbn [firstn] in E; congruence). subst. intros ->. apply B. exists r. reflexivity.
Qed.

(** ** Tails *)
Section Quote.
Variable q : char.
Hypothesis Q : string_quote q.
Ltac qq := unfold string_quote, ch_bslash, ch_squote, ch_dquote in *; lia.
Lemma head_tail_line b x : line_inside q b -> py_head_tail q (b ++ q :: x) = Some (S (length b), false).
Proof.
  induction 1 as [|c r H1 H2 H3 _ IH|c r H1 _ IH]; cbn [app py_head_tail].
  - rewrite N.eqb_refl. reflexivity.
  - replace (c =? q) with false by lia. replace (c =? 10) with false by lia. replace (c =? ch_bslash) with false by qq. rewrite IH. reflexivity.
  - replace (92 =? q) with false by qq. change (92 =? 10) with false. change (92 =? ch_bslash) with true. cbv iota.
    replace (c =? 10) with false by lia. rewrite IH. reflexivity.
Qed.
Lemma head_tail_lines b x : line_inside q b -> py_head_tail q (b ++ 92 :: 10 :: x) = Some (S (S (length b)), true).
Proof.
  induction 1 as [|c r H1 H2 H3 _ IH|c r H1 _ IH]; cbn [app py_head_tail].
  - replace (92 =? q) with false by qq. reflexivity.
  - replace (c =? q) with false by lia. replace (c =? 10) with false by lia. replace (c =? ch_bslash) with false by qq. rewrite IH. reflexivity.
  - replace (92 =? q) with false by qq. change (92 =? 10) with false. change (92 =? ch_bslash) with true. cbv iota.
    replace (c =? 10) with false by lia. rewrite IH. reflexivity.
Qed.
Lemma line_one b : line_inside q b -> one_line b.
Proof. induction 1 as [|c r H1 H2 H3 _ IH|c r H1 _ IH]; intros X; [destruct X|destruct X; [congruence|contradiction]|destruct X as [X|[X|X]]; [discriminate|congruence|contradiction]]. Qed.
(** continued lines *)
Lemma tail1_last b x : lines_inside q b -> one_line b -> py_tail1 q (b ++ q :: x) = Some (S (length b)).
Proof.
  unfold py_tail1. induction 1 as [|c r H1 H2 H3 _ IH|c r _ IH]; intros O; cbn [app c_literal_tail].
  - rewrite N.eqb_refl. reflexivity.
  - replace (c =? q) with false by lia. replace (c =? ch_bslash) with false by qq. rewrite IH; [reflexivity|]. intros X; apply O; right; exact X.
  - replace (92 =? q) with false by qq. change (92 =? ch_bslash) with true. cbv iota.
    replace (c =? 10) with false by (symmetry; apply N.eqb_neq; intros ->; apply O; right; left; reflexivity).
    rewrite IH; [reflexivity|]. intros X; apply O; right; right; exact X.
Qed.
Lemma tail1_more b : lines_inside q b -> forall a z, b = a ++ 10 :: z -> one_line a ->
  py_tail1 q (a ++ [10]) = None /\ lines_inside q z /\ exists a', a = a' ++ [92].
Proof.
  unfold py_tail1. induction 1 as [|c r H1 H2 H3 _ IH|c r H IH]; intros a z E O.
  - destruct a; discriminate.
  - destruct a as [|y a]; cbn [app] in E; injection E as E0 E; [congruence|subst y].
    destruct (IH a z E ltac:(intros X; apply O; right; exact X)) as (I1 & I2 & a' & ->). cbn [app c_literal_tail].
    replace (c =? q) with false by lia. replace (c =? ch_bslash) with false by qq. rewrite I1. split; [reflexivity|]. split; [exact I2|]. exists (c :: a'). reflexivity.
  - destruct a as [|y a]; cbn [app] in E; [discriminate|]. injection E as E0 E. subst y. destruct a as [|y a]; cbn [app] in E; injection E as E0 E; [subst c|subst y].
    + subst r. cbn [app c_literal_tail]. replace (92 =? q) with false by qq. split; [reflexivity|]. split; [exact H|]. exists []. reflexivity.
    + destruct (IH a z E ltac:(intros X; apply O; right; right; exact X)) as (I1 & I2 & a' & ->). cbn [app c_literal_tail].
      replace (92 =? q) with false by qq. change (92 =? ch_bslash) with true. cbv iota.
      replace (c =? 10) with false by (symmetry; apply N.eqb_neq; intros ->; apply O; right; left; reflexivity).
      rewrite I1. split; [reflexivity|]. split; [exact I2|]. exists (92 :: c :: a'). reflexivity.
Qed.
Lemma continued a : is_continued ((a ++ [92]) ++ [10]) = true.
Proof.
  unfold is_continued. rewrite <- app_assoc. cbn [app]. rewrite app_length. cbn [length].
  replace (length a + 2 - 2)%nat with (length a) by lia. rewrite skipn_length_app. reflexivity.
Qed.
Lemma tail_lines_single n : forall b r p, lines_inside q b -> (length (b ++ q :: r) < n)%nat ->
  py_tail_lines n q true p (b ++ q :: r) = Ok (p + S (length b))%nat.
Proof.
  induction n as [|n IH]; intros b r p H L; [lia|]. cbn [py_tail_lines]. fold (first_line (b ++ q :: r)).
  destruct (line_cut b) as [O|(a & z & -> & O)].
  - destruct (first_line_app (b ++ [q]) r) as (x & E & _).
    { intros X. apply in_app_or in X as [X|[X|[]]]; [contradiction|]. qq. }
    rewrite <- app_assoc in E. cbn [app] in E. rewrite E, <- app_assoc. cbn [app].
    rewrite (tail1_last b x H O). destruct (b ++ q :: x) eqn:E'; [destruct b; discriminate E'|]. reflexivity.
  - destruct (tail1_more _ H a z eq_refl O) as (T & Hz & a' & ->).
    rewrite <- app_assoc. cbn [app]. destruct (first_line_cut (a' ++ [92]) (z ++ q :: r) O) as [-> _].
    destruct ((a' ++ [92]) ++ [10]) as [|c0 l0] eqn:E0; [destruct a'; discriminate E0|].
    rewrite T. rewrite <- E0. rewrite continued. cbn [andb negb].
    assert (Es : skipn (length ((a' ++ [92]) ++ [10])) ((a' ++ [92]) ++ 10 :: z ++ q :: r) = z ++ q :: r).
    { replace ((a' ++ [92]) ++ 10 :: z ++ q :: r) with (((a' ++ [92]) ++ [10]) ++ z ++ q :: r) by (rewrite <- !app_assoc; reflexivity). apply skipn_length_app. }
    rewrite Es, IH; [|exact Hz|].
    + f_equal. rewrite !app_length. cbn [length]. lia.
    + rewrite !app_length in *. cbn [length] in *. rewrite ?app_length in *. cbn [length] in *. lia.
Qed.
(** three quotes *)
Lemma begins_two t x : begins [q; q] ((t ++ [q; q; q]) ++ x) -> begins [q; q] (t ++ [q; q; q]).
Proof.
  intros [y E]. destruct t as [|a [|b t]]; cbn [app] in *.
  - eexists. reflexivity.
  - injection E as -> E. eexists. reflexivity.
  - injection E as -> -> _. eexists. reflexivity.
Qed.
Lemma starts_two t : startswith [q; q] t = true -> begins [q; q] t.
Proof. apply startswith_spec. Qed.
Lemma tail3_last b x : triple_inside q b -> one_line b -> py_tail3 q (b ++ [q; q; q] ++ x) = Some (length b + 3)%nat.
Proof.
  induction 1 as [|c r H1 H2 _ IH|c r _ IH|r H1 _ IH]; intros O; cbn [app py_tail3].
  - rewrite N.eqb_refl. cbn [startswith]. rewrite !N.eqb_refl. reflexivity.
  - replace (c =? q) with false by lia. replace (c =? ch_bslash) with false by qq. cbn [app] in IH. rewrite IH; [reflexivity|]. intros X; apply O; right; exact X.
  - replace (92 =? q) with false by qq. change (92 =? ch_bslash) with true. cbv iota.
    replace (c =? 10) with false by (symmetry; apply N.eqb_neq; intros ->; apply O; right; left; reflexivity).
    cbn [app] in IH. rewrite IH; [reflexivity|]. intros X; apply O; right; right; exact X.
  - rewrite N.eqb_refl. cbn [app] in IH. destruct (startswith [q; q] (r ++ q :: q :: q :: x)) eqn:E.
    + exfalso. apply H1. apply starts_two in E. apply (begins_two r x). rewrite <- app_assoc. exact E.
    + rewrite IH; [reflexivity|]. intros X; apply O; right; exact X.
Qed.
Lemma tail3_more b : triple_inside q b -> forall a z, b = a ++ 10 :: z -> one_line a ->
  py_tail3 q (a ++ [10]) = None /\ triple_inside q z.
Proof.
  induction 1 as [|c r H1 H2 H IH|c r H IH|r H1 H IH]; intros a z E O.
  - destruct a; discriminate.
  - destruct a as [|y a]; cbn [app] in E; injection E as E0 E; [subst c r|subst y].
    + cbn [app py_tail3]. replace (10 =? q) with false by lia. split; [reflexivity|exact H].
    + destruct (IH a z E ltac:(intros X; apply O; right; exact X)) as (I1 & I2). cbn [app py_tail3].
      replace (c =? q) with false by lia. replace (c =? ch_bslash) with false by qq. rewrite I1. split; [reflexivity|exact I2].
  - destruct a as [|y a]; cbn [app] in E; [discriminate|]. injection E as E0 E. subst y. destruct a as [|y a]; cbn [app] in E; injection E as E0 E; [subst c|subst y].
    + subst r. cbn [app py_tail3]. replace (92 =? q) with false by qq. split; [reflexivity|exact H].
    + destruct (IH a z E ltac:(intros X; apply O; right; right; exact X)) as (I1 & I2). cbn [app py_tail3].
      replace (92 =? q) with false by qq. change (92 =? ch_bslash) with true. cbv iota.
      replace (c =? 10) with false by (symmetry; apply N.eqb_neq; intros ->; apply O; right; left; reflexivity).
      rewrite I1. split; [reflexivity|exact I2].
  - destruct a as [|y a]; cbn [app] in E; injection E as E0 E; [exfalso; qq|subst y].
    destruct (IH a z E ltac:(intros X; apply O; right; exact X)) as (I1 & I2). cbn [app py_tail3]. rewrite N.eqb_refl.
    destruct (startswith [q; q] (a ++ [10])) eqn:Es; [|rewrite I1; split; [reflexivity|exact I2]].
    exfalso. apply H1. apply starts_two in Es as [y Es]. subst r. exists (y ++ z ++ [q; q; q]).
    replace ((a ++ 10 :: z) ++ [q; q; q]) with ((a ++ [10]) ++ z ++ [q; q; q]) by (rewrite <- !app_assoc; reflexivity).
    rewrite Es, <- app_assoc. reflexivity.
Qed.
Lemma tail_lines_triple n : forall b r p, triple_inside q b -> (length (b ++ [q; q; q] ++ r) < n)%nat ->
  py_tail_lines n q false p (b ++ [q; q; q] ++ r) = Ok (p + (length b + 3))%nat.
Proof.
  induction n as [|n IH]; intros b r p H L; [lia|]. cbn [py_tail_lines]. fold (first_line (b ++ [q; q; q] ++ r)).
  destruct (line_cut b) as [O|(a & z & -> & O)].
  - destruct (first_line_app (b ++ [q; q; q]) r) as (x & E & _).
    { intros X. apply in_app_or in X as [X|X]; [contradiction|]. destruct X as [X|[X|[X|[]]]]; qq. }
    rewrite <- app_assoc in E. rewrite E, <- app_assoc.
    rewrite (tail3_last b x H O). destruct (b ++ [q; q; q] ++ x) eqn:E'; [destruct b; discriminate E'|]. reflexivity.
  - destruct (tail3_more _ H a z eq_refl O) as (T & Hz).
    rewrite <- app_assoc. cbn [app]. destruct (first_line_cut a (z ++ q :: q :: q :: r) O) as [-> _].
    destruct (a ++ [10]) as [|c0 l0] eqn:E0; [destruct a; discriminate E0|].
    rewrite T. rewrite <- E0. cbn [andb].
    assert (Es : skipn (length (a ++ [10])) (a ++ 10 :: z ++ q :: q :: q :: r) = z ++ q :: q :: q :: r).
    { replace (a ++ 10 :: z ++ q :: q :: q :: r) with ((a ++ [10]) ++ z ++ q :: q :: q :: r) by (rewrite <- !app_assoc; reflexivity). apply skipn_length_app. }
    rewrite Es. change (z ++ q :: q :: q :: r) with (z ++ [q; q; q] ++ r). rewrite IH; [|exact Hz|].
    + f_equal. rewrite !app_length. cbn [length]. lia.
    + rewrite !app_length in *. cbn [length] in *. rewrite ?app_length in *. cbn [length] in *. lia.
Qed.
End Quote.

(** ** Heads *)
Ltac qq := unfold string_quote, ch_bslash, ch_squote, ch_dquote in *; lia.
Lemma prefix_len p q r : string_prefix p -> string_quote q -> py_prefix_len (p ++ q :: r) = length p.
Proof.
  intros P Q. destruct P as [|a A|b B|a b A B]; unfold py_prefix_len; cbn [app skipn length].
  - replace ((q =? 117) || (q =? 85)) with false by qq. cbn [skipn]. replace ((q =? 114) || (q =? 82)) with false by qq. reflexivity.
  - replace ((a =? 117) || (a =? 85)) with true by lia. cbn [skipn]. replace ((q =? 114) || (q =? 82)) with false by qq. reflexivity.
  - replace ((b =? 117) || (b =? 85)) with false by lia. cbn [skipn]. replace ((b =? 114) || (b =? 82)) with true by lia. reflexivity.
  - replace ((a =? 117) || (a =? 85)) with true by lia. cbn [skipn]. replace ((b =? 114) || (b =? 82)) with true by lia. reflexivity.
Qed.
Lemma prefix_no_line p : string_prefix p -> one_line p.
Proof. intros [|a A|b B|a b A B] X; cbn [In] in X; lia. Qed.
Lemma prefix_no_quote p : string_prefix p -> has_char ch_squote p = false.
Proof. intros [|a A|b B|a b A B]; unfold has_char, existsb, ch_squote; lia. Qed.
Lemma quote_true q : string_quote q -> ((q =? ch_squote) || (q =? ch_dquote)) = true.
Proof. qq. Qed.
(** the head of a literal with one quote *)
Lemma head_single p q r : string_prefix p -> string_quote q -> ~ begins [q; q] r ->
  py_head (p ++ q :: r) = option_map (fun kb => PHSingle q (S (length p + fst kb)) (snd kb)) (py_head_tail q r).
Proof.
  intros P Q B. unfold py_head. rewrite (prefix_len p q r P Q). unfold py_head_at. rewrite skipn_length_app.
  cbn [skipn]. rewrite (quote_true q Q). destruct r as [|b [|c r]]; try reflexivity.
  replace (_ || _) with false; [reflexivity|]. symmetry. apply not_true_iff_false. intros E. apply B. exists r.
  apply orb_true_iff in E as [E|E]; apply andb_true_iff in E as [E E3]; apply andb_true_iff in E as [E1 E2];
    apply N.eqb_eq in E1, E2, E3; subst; reflexivity.
Qed.
Lemma head_triple p q r : string_prefix p -> string_quote q -> py_head (p ++ q :: q :: q :: r) = Some (PHTriple q (length p + 3)).
Proof.
  intros P Q. unfold py_head. rewrite (prefix_len p q _ P Q). unfold py_head_at. rewrite skipn_length_app.
  replace (_ || _) with true; [reflexivity|]. symmetry. destruct Q as [-> | ->]; reflexivity.
Qed.
Lemma line_not_two q b x : string_quote q -> line_inside q b -> b <> [] -> ~ begins [q; q] (b ++ x).
Proof. intros Q [|c r H1 H2 H3 _|c r H1 _] N [y E]; [congruence| |]; cbn [app] in E; injection E as E _; qq. Qed.
Lemma char_in c t : has_char c t = true <-> In c t.
Proof.
  unfold has_char. rewrite existsb_exists. split.
  - intros (x & H & E). apply N.eqb_eq in E. subst. exact H.
  - intros H. exists c. split; [exact H|apply N.eqb_refl].
Qed.

Ltac len := repeat first [rewrite app_length | progress cbn [length]]; lia.
Lemma python_string w r : python_literal w r -> py_string_len (w ++ r) = Ok (Some (length w)).
Proof.
  intros H. destruct H as [p q body r P Q B E|p q head body r P Q B A L|p q body r P Q T]; unfold py_string_len; fold (first_line).
  - change (firstn (getline_len ?t) ?t) with (first_line t).
    destruct (first_line_app (p ++ q :: body ++ [q]) r) as (x & -> & Ex).
    { intros X. apply in_app_or in X as [X|[X|X]]; [exact (prefix_no_line p P X)|qq|]. apply in_app_or in X as [X|[X|[]]]; [exact (line_one q body B X)|qq]. }
    rewrite <- !app_assoc. cbn [app]. rewrite <- app_assoc. cbn [app].
    rewrite head_single; [|exact P|exact Q|].
    + rewrite (head_tail_line q Q body x B). cbn [option_map fst snd]. do 2 f_equal. len.
    + destruct body as [|c body]; [|apply line_not_two; [exact Q|exact B|discriminate]].
      cbn [app]. intros [y Y]. injection Y as Y. subst x. exact (first_line_head q r q y Y (E eq_refl) eq_refl).
  - change (firstn (getline_len ?t) ?t) with (first_line t).
    set (T := (p ++ q :: head ++ [92; 10] ++ body ++ [q]) ++ r).
    assert (ET : T = (p ++ q :: head ++ [92]) ++ 10 :: body ++ q :: r).
    { unfold T. rewrite <- !app_assoc. cbn [app]. rewrite <- !app_assoc. cbn [app]. rewrite <- !app_assoc. reflexivity. }
    assert (O : one_line (p ++ q :: head ++ [92])).
    { intros X. apply in_app_or in X as [X|[X|X]]; [exact (prefix_no_line p P X)|qq|]. apply in_app_or in X as [X|[X|[]]]; [exact (line_one q head B X)|discriminate]. }
    destruct (first_line_cut _ (body ++ q :: r) O) as [F1 F2]. rewrite <- ET in F1. rewrite F1.
    assert (El : (p ++ q :: head ++ [92]) ++ [10] = p ++ q :: head ++ 92 :: [10]) by (rewrite <- !app_assoc; cbn [app]; rewrite <- app_assoc; reflexivity).
    rewrite El. rewrite head_single; [|exact P|exact Q|].
    2:{ destruct head as [|c head]; [|apply line_not_two; [exact Q|exact B|discriminate]]. intros [y Y]. cbn [app] in Y. injection Y as Y _. qq. }
    rewrite (head_tail_lines q Q head [] B). cbn [option_map fst snd].
    assert (Ef : firstn (S (length p + S (S (length head)))) (p ++ q :: head ++ [92; 10]) = p ++ q :: head ++ [92; 10]).
    { apply firstn_all2. len. }
    rewrite Ef.
    assert (Eq : (if has_char ch_squote (p ++ q :: head ++ [92; 10]) then ch_squote else ch_dquote) = q).
    { destruct (has_char ch_squote _) eqn:Hc.
      - apply char_in in Hc. apply in_app_or in Hc as [X|[X|X]].
        + apply char_in in X. rewrite prefix_no_quote in X by exact P. discriminate.
        + symmetry. exact X.
        + apply in_app_or in X as [X|[X|[X|[]]]]; try discriminate X. destruct Q as [Q|Q]; [destruct (A Q X)|symmetry; exact Q].
      - destruct Q as [Q|Q]; [symmetry; exact Q|]. exfalso. assert (K : has_char ch_squote (p ++ q :: head ++ [92; 10]) = true); [|congruence].
        apply char_in, in_or_app. right. left. exact Q. }
    rewrite Eq. rewrite <- El.
    assert (Es : skipn (length ((p ++ q :: head ++ [92]) ++ [10])) T = body ++ q :: r).
    { rewrite ET. replace ((p ++ q :: head ++ [92]) ++ 10 :: body ++ q :: r) with (((p ++ q :: head ++ [92]) ++ [10]) ++ body ++ q :: r) by (rewrite <- app_assoc; reflexivity). apply skipn_length_app. }
    rewrite Es, (tail_lines_single q Q); [|exact L|].
    + do 2 f_equal. len.
    + rewrite ET. len.
  - change (firstn (getline_len ?t) ?t) with (first_line t).
    set (T0 := (p ++ [q; q; q] ++ body ++ [q; q; q]) ++ r).
    assert (ET : T0 = (p ++ [q; q; q]) ++ body ++ [q; q; q] ++ r) by (unfold T0; rewrite <- !app_assoc; reflexivity).
    assert (O : one_line (p ++ [q; q; q])).
    { intros X. apply in_app_or in X as [X|X]; [exact (prefix_no_line p P X)|]. destruct X as [X|[X|[X|[]]]]; qq. }
    destruct (first_line_app (p ++ [q; q; q]) (body ++ [q; q; q] ++ r) O) as (x & F & Ex). rewrite <- ET in F. rewrite F.
    replace (py_head ((p ++ [q; q; q]) ++ x)) with (Some (PHTriple q (length p + 3))) by (rewrite <- app_assoc; symmetry; apply head_triple; assumption).
    replace (length p + 3)%nat with (length (p ++ [q; q; q])) by (rewrite app_length; reflexivity). rewrite skipn_length_app.
    assert (El : length (p ++ [q; q; q] ++ body ++ [q; q; q]) = (length (p ++ [q; q; q]) + (length body + 3))%nat) by (len).
    destruct (line_cut body) as [Ob|(a & z & -> & Oa)].
    + destruct (first_line_app (body ++ [q; q; q]) r) as (y & Ey & _).
      { intros X. apply in_app_or in X as [X|X]; [contradiction|]. destruct X as [X|[X|[X|[]]]]; qq. }
      rewrite <- app_assoc in Ey. rewrite Ex, Ey, <- app_assoc, (tail3_last q Q body y T Ob), El. reflexivity.
    + destruct (tail3_more q Q _ T a z eq_refl Oa) as (Tn & Tz).
      assert (Ex' : x = a ++ [10]) by (rewrite Ex, <- app_assoc; apply (first_line_cut a _ Oa)).
      rewrite Ex', Tn.
      assert (Es : skipn (length ((p ++ [q; q; q]) ++ a ++ [10])) T0 = z ++ [q; q; q] ++ r).
      { rewrite ET. replace ((p ++ [q; q; q]) ++ (a ++ 10 :: z) ++ [q; q; q] ++ r) with (((p ++ [q; q; q]) ++ a ++ [10]) ++ z ++ [q; q; q] ++ r) by (rewrite <- !app_assoc; reflexivity). apply skipn_length_app. }
      rewrite Es, (tail_lines_triple q Q); [|exact Tz|].
      * do 2 f_equal. rewrite El. len.
      * rewrite ET. len.
Qed.
(** where no literal begins *)
Lemma head_begins ln h : py_head ln = Some h -> string_begins ln.
Proof.
  unfold py_head. set (i := py_prefix_len ln).
  assert (F : string_prefix (firstn i ln)).
  { subst i. unfold py_prefix_len. destruct ln as [|a [|b ln]]; [constructor| |].
    - destruct ((a =? 117) || (a =? 85)) eqn:E; cbn [skipn]; [cbn [firstn]; apply sx_u; lia|].
      destruct ((a =? 114) || (a =? 82)) eqn:E'; cbn [firstn]; [apply sx_r; lia|constructor].
    - destruct ((a =? 117) || (a =? 85)) eqn:E; cbn [skipn].
      + destruct ((b =? 114) || (b =? 82)) eqn:E'; cbn [firstn]; [apply sx_ur; lia|apply sx_u; lia].
      + destruct ((a =? 114) || (a =? 82)) eqn:E'; cbn [firstn]; [apply sx_r; lia|constructor]. }
  clearbody i. unfold py_head_at. intros H.
  assert (K : exists a r, skipn i ln = a :: r /\ ((a =? ch_squote) || (a =? ch_dquote)) = true).
  { destruct (skipn i ln) as [|a [|b [|c r]]] eqn:E; try discriminate.
    1,2: destruct ((a =? ch_squote) || (a =? ch_dquote)) eqn:Q; [eauto|discriminate].
    exists a, (b :: c :: r). split; [reflexivity|]. destruct ((a =? ch_squote) || (a =? ch_dquote)) eqn:Q; [reflexivity|].
    apply orb_false_iff in Q as [Q1 Q2]. rewrite Q1, Q2 in H. cbn in H. discriminate. }
  destruct K as (a & r & E & Q). exists (firstn i ln), a, r. split; [exact F|]. split; [unfold ch_squote, ch_dquote in Q; qq|].
  rewrite <- E, firstn_skipn. reflexivity.
Qed.
Lemma no_string t : ~ string_begins t -> py_string_len t = Ok None.
Proof.
  intros N. unfold py_string_len. destruct (py_head _) as [h|] eqn:E; [exfalso|reflexivity].
  apply N. apply head_begins in E as (p & q & r & P & Q & E). exists p, q, (r ++ skipn (getline_len t) t).
  split; [exact P|]. split; [exact Q|]. rewrite <- (firstn_skipn (getline_len t) t) at 1. rewrite E, <- app_assoc. reflexivity.
Qed.
Lemma literal_head w r : python_literal w r -> exists c x, w = c :: x /\ (c = 34 \/ c = 39 \/ c = 117 \/ c = 85 \/ c = 114 \/ c = 82).
Proof.
  intros H. assert (K : exists p q y, w = p ++ q :: y /\ string_prefix p /\ string_quote q) by (destruct H; eexists _, _, _; split; [reflexivity|auto|reflexivity|auto|reflexivity|auto]).
  destruct K as (p & q & y & -> & P & Q). destruct P; cbn [app]; eexists _, _; split; try reflexivity; qq.
Qed.
Definition at_string (t : text) : bool := match skipn (py_prefix_len t) t with q :: _ => (q =? 34) || (q =? 39) | [] => false end.
Lemma not_at_string t : at_string t = false -> ~ string_begins t.
Proof.
  intros H (p & q & r & P & Q & E). subst t. unfold at_string in H. rewrite (prefix_len p q r P Q), skipn_length_app in H. qq.
Qed.
