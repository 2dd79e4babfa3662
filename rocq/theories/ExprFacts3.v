(** * Reading back written expressions: the induction *)
From Coq Require Import List NArith ZArith Bool Lia ZifyBool ZifyNat ZifyN.
From Verif Require Import PyStr PyStrFacts Ast Lex LexSpec LexFacts LexFacts2 NumFacts Parse ProtectSpec ProtectFacts ExprSpec ExprFacts ExprFacts2 PpSpec DocSpec PyLitFacts.
Import ListNotations.
Open Scope N_scope.
Open Scope monad_scope.

(** ** Texts *)
Definition stop_of (d : delim) : tgen -> option source :=
  match d with DSquare => stop_sq | DBrace => stop_brace | DBlock _ => stop_eol | DSemi | DUntil _ => stop_comma | DCode | DInfix => stop_pth | DSource => stop_eof end.
(** what closes a text and is left to be read *)
Definition kept (d : delim) : text := match d with DUntil w => w | _ => [] end.
Definition text_reads (k : self) (dl : delim) (t : text) (d : contents) : Prop := forall f p s rest,
  exists g q, drive_text k (stop_of dl) (Src (t ++ closing dl ++ rest) f p) s = Ok (Src (kept dl ++ rest) f q, g, s) /\ stands_for (tg_ast g) d.
Lemma bare_text l d sq p : stands_for l d -> bare (NText l sq p) = tree_text d.
Proof. unfold stands_for, tree_text. cbn [bare]. intros ->. reflexivity. Qed.

Lemma begins_prefix w a c r : Forall (fun x => x <> c) w -> startswith w (a ++ c :: r) = true -> begins w a.
Proof.
  intros F. revert a. induction F as [|x w Hx F IH]; intros a H; [exists a; reflexivity|].
  destruct a as [|y a]; cbn [app startswith] in H; apply andb_true_iff in H as [H1 H2]; [lia|].
  apply N.eqb_eq in H1. subst y. destruct (IH a H2) as [z ->]. exists z. reflexivity.
Qed.

(** ** The end of the arguments *)
Lemma arguments_end python m tag args named t : arguments python m tag args named t -> exists r, t = r ++ [41].
Proof.
  induction 1 as [tg g G|a g1 g2 G1 G2|tg b e args0 named0 g1 g2 u r G1 G2 Se O F Ar [r' ->]|tg a e args0 named0 g1 g2 u r Ia N G1 G2 Se St F Ar [r' ->]].
  - exists g. reflexivity.
  - exists (g1 ++ 92 :: a ++ g2). rewrite <- !app_assoc. cbn [app]. rewrite <- app_assoc. reflexivity.
  - exists (g1 ++ star b ++ g2 ++ u ++ r'). rewrite <- !app_assoc. reflexivity.
  - exists (g1 ++ 92 :: a ++ g2 ++ u ++ r'). rewrite <- !app_assoc. cbn [app]. rewrite <- !app_assoc. reflexivity.
Qed.
Lemma arguments_count python m tag args named t : arguments python m tag args named t ->
  exists g c r, t = g ++ c :: r /\ Forall white g /\ ~ white c /\ (length args + length named <= length (c :: r))%nat.
Proof.
  intros [tg g G|a g1 g2 G1 G2|tg b e args0 named0 g1 g2 u r G1 G2 Se O F Ar|tg a e args0 named0 g1 g2 u r Ia N G1 G2 Se St F Ar].
  - exists g, 41, []. repeat split; [exact G|chars|cbn; lia].
  - eexists g1, 92, _. repeat split; [exact G1|chars|cbn; lia].
  - apply arguments_length in Ar. pose proof Se as Sh. apply spelled_head in Sh as (c & x & -> & Hc). destruct b; cbn [star app].
    + eexists g1, 42, _. repeat split; [exact G1|chars|]. cbn [length]. rewrite app_length. cbn [length]. rewrite app_length. lia.
    + eexists (g1 ++ g2), c, _. split; [rewrite <- app_assoc; reflexivity|]. repeat split; [apply Forall_app; auto|chars|]. cbn [length]. rewrite app_length. lia.
  - apply arguments_length in Ar. eexists g1, 92, _. repeat split; [exact G1|chars|]. cbn [length]. rewrite !app_length. lia.
Qed.
Lemma literal_delimited w r : python_literal w [] -> delimited r -> python_literal w r.
Proof.
  intros L [D _]. inversion L; subst; constructor; try assumption. intros _ [x ->]. cbn in D. unfold string_quote in *. lia.
Qed.

Section Rules.
Variables (cx : pctx) (k : self) (size : nat).
Notation py := (c_python cx).
Notation md := (c_skip cx).
Hypothesis Hform : forall e t, spelled py md e t -> (length t < size)%nat -> form_reads k e t.
Hypothesis Hclose : closes k.
Hypothesis Htext : forall dl t d, delim_ok dl -> written py md dl level t d -> (S (length t) < size)%nat -> text_reads k dl t d.

Lemma starts_cons c p x r f q : c <> x -> sstarts (c :: p) (Src (x :: r) f q) = false.
Proof. intros H. unfold sstarts. cbn [s_txt startswith]. replace (c =? x) with false by lia. reflexivity. Qed.

(** ** Where the alternatives do not apply *)
Definition dollar3 (r : text) : Prop := exists c r', r = 40 :: 36 :: c :: r' /\ (c = 32 \/ c = 36).
Ltac notkw := unfold sstarts; cbn [s_txt]; reflexivity.
Lemma no_code c r f p s : c <> 93 -> c <> 91 -> c <> 44 -> startswith ps_CODE (c :: r) = false -> ps_code k (Src (c :: r) f p) s = Ok (Src (c :: r) f p, None, s).
Proof.
  intros A B D H. unfold ps_code. rewrite !sis_char. replace (c =? ch_sq_close) with false by chars. replace (c =? ch_sq_open) with false by chars.
  unfold sstarts at 1. cbn [s_txt]. rewrite H. change ps_DUALCOMMA with [44; 44]. rewrite starts_cons by congruence. reflexivity.
Qed.
Lemma no_infix c r f p s : c <> 123 -> startswith ps_INFIX (c :: r) = false -> ps_infix k (Src (c :: r) f p) s = Ok (Src (c :: r) f p, None, s).
Proof.
  intros A H. unfold ps_infix. rewrite !sis_char. replace (c =? ch_lbrace) with false by chars.
  unfold sstarts at 1. cbn [s_txt]. rewrite H. reflexivity.
Qed.
Lemma no_let t f p s : startswith ps_LET t = false -> ps_let k (Src t f p) s = Ok (Src t f p, None, s).
Proof. intros H. unfold ps_let, sstarts. cbn [s_txt]. rewrite H. reflexivity. Qed.
Lemma no_app t f p s : startswith (lit "($") t = false -> ps_application k (Src t f p) s = Ok (Src t f p, None, s).
Proof. intros H. unfold ps_application, sstarts. cbn [s_txt]. rewrite H. reflexivity. Qed.

(** ** Lists *)
Lemma paren_kw c r : c <> 36 -> c <> 96 -> startswith ps_CODE (40 :: c :: r) = false /\ startswith ps_INFIX (40 :: c :: r) = false /\ startswith ps_LET (40 :: c :: r) = false /\ startswith (lit "($") (40 :: c :: r) = false /\ startswith ps_BQUOTE (40 :: c :: r) = false /\ startswith ps_QUOTE (40 :: c :: r) = false.
Proof.
  intros A B. assert (K : forall x w, x <> c -> startswith (40 :: x :: w) (40 :: c :: r) = false).
  { intros x w N. cbn [startswith]. replace (x =? c) with false by lia. reflexivity. }
  repeat split; apply K; intros H; first [apply A; rewrite <- H; reflexivity|apply B; rewrite <- H; reflexivity].
Qed.
(** the words behind the opening of an application *)
Definition no_word (U : text) : Prop := Forall (fun w => startswith w U = false) (lit "!" :: keywords).
Lemma no_word_at U : no_word U -> startswith ps_CODE (40 :: 36 :: U) = false /\ startswith ps_INFIX (40 :: 36 :: U) = false /\ startswith ps_LET (40 :: 36 :: U) = false /\ startswith ps_EMIT (40 :: 36 :: U) = false /\ startswith ps_BQUOTE (40 :: 36 :: U) = false /\ startswith ps_QUOTE (40 :: 36 :: U) = false /\
  startswith ps_SET (40 :: 36 :: U) = false /\ startswith ps_IMPORT (40 :: 36 :: U) = false /\ startswith ps_MACRO (40 :: 36 :: U) = false /\ startswith ps_COMMENT (40 :: 36 :: U) = false.
Proof.
  unfold no_word, keywords. intros H. cbn [map] in H. repeat match goal with H : Forall _ (_ :: _) |- _ => let a := fresh in pose proof (Forall_inv H) as a; apply Forall_inv_tail in H; cbn beta in a end.
  repeat split; try reflexivity; assumption.
Qed.
Lemma white_no_word c r : white c \/ c = 36 -> no_word (c :: r).
Proof.
  intros W. unfold no_word. assert (K : forall x w, x <> c -> startswith (x :: w) (c :: r) = false) by (intros x w N; cbn [startswith]; replace (x =? c) with false by lia; reflexivity).
  let kw := eval vm_compute in keywords in change keywords with kw. change (lit "!") with [33].
  repeat (apply Forall_cons; [apply K; chars|]). apply Forall_nil.
Qed.
Lemma opening_words (ev : bool) f t g r rest : spelled py md f t -> Forall white g ->
  (ev = false -> g = [] -> Forall (fun w => ~ begins w (t ++ r)) keywords) -> (exists r', r = r' ++ [41]) ->
  no_word ((if ev then [36] else []) ++ g ++ t ++ r ++ rest).
Proof.
  intros S1 G K [r' Er]. destruct ev; [apply white_no_word; auto|]. destruct G as [|a g A G]; [|apply white_no_word; auto].
  specialize (K eq_refl eq_refl). cbn [app]. apply spelled_head in S1 as (hc & hr & Eh & Hh). constructor.
  - rewrite Eh. cbn [app]. change (lit "!") with [33]. cbn [startswith]. replace (33 =? hc) with false by chars. reflexivity.
  - rewrite Er in *. clear Er. assert (F : Forall (Forall (fun x => x <> 41)) keywords) by (let kw := eval vm_compute in keywords in change keywords with kw; repeat first [apply Forall_cons|apply Forall_nil|discriminate]).
    revert F. clear -K. induction K as [|w l N K IH]; intros F; constructor.
    + destruct (startswith w (t ++ (r' ++ [41]) ++ rest)) eqn:E; [|reflexivity]. exfalso. apply N. rewrite <- app_assoc in E. cbn [app] in E. rewrite app_assoc in E.
      apply begins_prefix in E; [|exact (Forall_inv F)]. rewrite app_assoc. apply begins_more, E.
    + apply IH, (Forall_inv_tail F).
Qed.

Lemma items_open l t : items py md l t -> exists c r, t = c :: r /\ c <> 36 /\ c <> 96.
Proof.
  intros [g G|b e l0 g1 g2 u r G1 G2 Se F It].
  - destruct G as [|a g A G]; [exists 41, []; split; [reflexivity|chars]|eexists _, _; split; [reflexivity|chars]].
  - destruct G1 as [|a g1 A G1]; [|eexists _, _; split; [reflexivity|chars]]. destruct b; [eexists _, _; split; [reflexivity|chars]|].
    destruct G2 as [|a g2 A G2]; [|eexists _, _; split; [reflexivity|chars]]. apply spelled_head in Se as (c & x & -> & H). eexists _, _. split; [reflexivity|chars].
Qed.
Lemma list_reads l t : items py md l t -> (length t < size)%nat -> lform_reads k (EList l) (40 :: t).
Proof.
  intros It L f p s rest _. cbn [app]. pose proof It as Io. apply items_open in Io as (c & r & E & C1 & C2).
  destruct (paren_kw c (r ++ rest) C1 C2) as (K1 & K2 & K3 & K4 & K5 & K6). rewrite app_comm_cons, <- E in K1, K2, K3, K4, K5, K6.
  unfold ps_l_form. rewrite (bind_ok _ _ _ _ _ (no_code 40 (t ++ rest) f p s ltac:(discriminate) ltac:(discriminate) ltac:(discriminate) K1)). cbv beta iota.
  rewrite (bind_ok _ _ _ _ _ (no_infix 40 (t ++ rest) f p s ltac:(discriminate) K2)). cbv beta iota.
  rewrite (bind_ok _ _ _ _ _ (no_let _ f p s K3)). cbv beta iota. rewrite (bind_ok _ _ _ _ _ (no_app _ f p s K4)). cbv beta iota.
  unfold ps_list. rewrite sis_char. change (40 =? ch_open) with true. cbv iota. unfold sfrom. cbn [s_txt s_file s_pos skipn].
  destruct (list_items_ok cx k size Hform l t It) with (n := S (length (40 :: t ++ rest))) (acc := @nil node) (f := f) (p := (p + Z.of_nat 1)%Z) (s := s) (rest := rest) as (xs & q & Ex & Bx).
  - lia.
  - cbn [length]. rewrite app_length. apply items_length in It. lia.
  - rewrite (bind_ok _ _ _ _ _ Ex). cbv beta iota. eexists _, _. split; [reflexivity|]. cbn [bare tree app]. rewrite Bx. reflexivity.
Qed.

(** ** Applications *)
Lemma app_reads ev tight g args named w u r : spelled py md g u -> Forall white w -> follows g r ->
  (ev = false -> w = [] -> Forall (fun w => ~ begins w (u ++ r)) keywords) -> arguments py md (closing_tag g) args named r ->
  (length (lit "($" ++ (if ev then [36%N] else []) ++ w ++ u ++ r) <= size)%nat -> forall f p s rest,
  (exists U, (lit "($" ++ (if ev then [36] else []) ++ w ++ u ++ r) ++ rest = 40 :: 36 :: U /\ no_word U) /\
  (exists x q, ps_l_form k (Src ((lit "($" ++ (if ev then [36] else []) ++ w ++ u ++ r) ++ rest) f p) s = Ok (Src rest f q, Some x, s) /\ bare x = tree (EApp ev tight g args named)) /\
  (exists x q, ps_application k (Src ((lit "($" ++ (if ev then [36] else []) ++ w ++ u ++ r) ++ rest) f p) s = Ok (Src rest f q, Some x, s) /\ bare x = tree (EApp ev tight g args named)).
Proof.
  intros Sg Ww Fo K Ar L f p s rest.
  rewrite <- !app_assoc. change (lit "($" ++ ?x) with (40 :: 36 :: x). rewrite !app_length in L. change (length (lit "($")) with 2%nat in L.
  set (U := (if ev then [36] else []) ++ w ++ u ++ r ++ rest).
  assert (NW : no_word U) by (apply (opening_words ev g); try assumption; eapply arguments_end, Ar).
  destruct (no_word_at U NW) as (K1 & K2 & K3 & K4 & K5 & K6 & _).
  pose proof Sg as Sh. apply spelled_head in Sh as (hc & hr & Eh & Hh).
  assert (X : exists x q, ps_application k (Src (40 :: 36 :: U) f p) s = Ok (Src rest f q, Some x, s) /\ bare x = tree (EApp ev tight g args named)).
  { unfold ps_application. unfold sstarts. cbn [s_txt]. rewrite K1, K4, K6, K2. change (startswith (lit "($") (40 :: 36 :: U)) with true. cbn [negb]. cbv iota.
    unfold sfrom at 1 2 3 4 5. cbn [s_txt s_file s_pos skipn].
    assert (Z2 : sis ch_dollar (Src U f (p + Z.of_nat 2)) = ev).
    { subst U. destruct ev; [reflexivity|]. cbn [app]. destruct Ww as [|a w A Ww]; [rewrite Eh; cbn [app]; rewrite sis_char; chars|cbn [app]; rewrite sis_char; chars]. }
    assert (Z1 : exists q, gap (if sis ch_dollar (Src U f (p + Z.of_nat 2)) then sfrom 1 (Src U f (p + Z.of_nat 2)) else Src U f (p + Z.of_nat 2)) = Src (u ++ r ++ rest) f q).
    { rewrite Z2. subst U. destruct ev; cbn [app]; unfold sfrom; cbn [s_txt s_file s_pos skipn]; eapply gap_spelled; eassumption. }
    destruct Z1 as [q0 Z1].
    cbv zeta. change (skipn 2 (40 :: 36 :: U)) with U. rewrite Z2 in *.
    destruct (form_at cx k size Hform g u r f q0 s rest Sg ltac:(lia) Fo (arguments_tail _ _ _ _ _ _ Ar)) as (x & q1 & Ex & Bx).
    match goal with |- context [bind (k_form k ?z) _ s] => replace z with (Src (u ++ r ++ rest) f q0) by (symmetry; exact Z1) end.
    rewrite (bind_ok _ _ _ _ _ Ex). cbv beta iota.
    set (fn := match x with NVar _ a => Some (s_txt a) | _ => None end).
    assert (Fn : fn = closing_tag g).
    { subst fn. destruct g as [z|q body|w0|body|[reg a|a]|l|ev0 tight0 g0 args0 named0|ps body|v body|b e body|c0 e1 e0|[]  t0 d0]; cbn [tree tree_region tree_name] in Bx; destruct x; try discriminate; try reflexivity.
      - cbn [bare] in Bx. injection Bx as _ Bx. cbn. rewrite Bx. reflexivity.
      - cbn [bare] in Bx. injection Bx as _ Bx. cbn. rewrite Bx. reflexivity.
      - destruct ev0; discriminate. }
    rewrite Fn.
    destruct (app_args_ok cx k size Hform (closing_tag g) args named r Ar) with (n := S (length (s_txt (gap (Src (r ++ rest) f q1))))) (acc := @nil node) (accn := @nil (source * node)) (sou := gap (Src (r ++ rest) f q1)) (f := f) (p := q1) (s := s) (rest := rest) as (xs & ys & q2 & Ey & By1 & By2).
    - intros a Ea. destruct g as [| | | |[reg a0|a0]| | | | | | |]; try discriminate Ea; cbn in Ea; injection Ea as ->; clear - Sg; inversion Sg as [| | | |v V| | | | | | | |]; subst; cbn in V; tauto.
    - lia.
    - exact Hclose.
    - destruct (arguments_count _ _ _ _ _ _ Ar) as (g' & c & r' & -> & G' & C' & Cn). rewrite <- app_assoc. cbn [app].
      destruct (gap_over g' c (r' ++ rest) f q1 G' C') as [q3 ->]. cbn [s_txt]. cbn [length] in *. rewrite app_length. lia.
    - rewrite gap_gap. reflexivity.
    - rewrite (bind_ok _ _ _ _ _ Ey). cbv beta iota. rewrite gap_char by chars. rewrite sis_char. change (41 =? ch_close) with true. cbn [negb]. cbv iota.
      unfold sfrom. cbn [s_txt s_file s_pos skipn]. eexists _, _. split; [reflexivity|]. cbn [tree app] in *.
      rewrite Z2. destruct ev; cbn [bare]; rewrite Bx, By1, By2; reflexivity. }
  split; [exists U; split; [reflexivity|exact NW]|]. split; [|exact X]. destruct X as (x & q & Ex & Bx).
  unfold ps_l_form. rewrite (bind_ok _ _ _ _ _ (no_code 40 (36 :: U) f p s ltac:(discriminate) ltac:(discriminate) ltac:(discriminate) K1)). cbv beta iota.
  rewrite (bind_ok _ _ _ _ _ (no_infix 40 (36 :: U) f p s ltac:(discriminate) K2)). cbv beta iota.
  rewrite (bind_ok _ _ _ _ _ (no_let _ f p s K3)). cbv beta iota.
  rewrite (bind_ok _ _ _ _ _ Ex). cbv beta iota. exists x, q. split; [reflexivity|exact Bx].
Qed.

(** ** Local bindings *)
Lemma binding_names_ok ps : ps <> [] -> params_ok ps -> forall n acc f p rest, (length ps <= n)%nat ->
  exists xs q, binding_names n acc (Src (param_text ps ++ 41 :: rest) f p) = Ok (Src rest f q, acc ++ xs) /\ map bare_src xs = map raw (map fst ps).
Proof.
  induction ps as [|[a g] ps IH]; [intros N; contradiction N; reflexivity|]. intros _ (Ia & G & Sep & P) n acc f p rest L. destruct n as [|n]; [cbn in L; lia|].
  cbn [param_text binding_names]. rewrite <- !app_assoc.
  assert (St : stops_at name_char (g ++ param_text ps ++ 41 :: rest)).
  { destruct Sep as [-> | N]; [cbn [param_text app]; destruct G as [|x g X G]; cbn; chars|]. destruct G as [|x g X G]; [contradiction N; reflexivity|]. cbn. chars. }
  rewrite ps_atom_ident by assumption.
  match goal with |- context [gap (Src _ f ?pp)] => pose proof (gap_run g (param_text ps ++ 41 :: rest) f pp G (param_text_stops ps rest P)) as Eg end. rewrite Eg.
  destruct ps as [|[b h] ps].
  - cbn [param_text app]. rewrite sis_char. change (41 =? ch_close) with true. cbv iota. unfold sfrom. cbn [s_txt s_file s_pos skipn].
    eexists [_], _. split; [reflexivity|]. reflexivity.
  - replace (sis ch_close _) with false.
    2: { destruct P as (Ib & _). apply ident_head in Ib as (c2 & r2 & -> & H2). cbn [param_text app]. rewrite sis_char. chars. }
    match goal with |- context [binding_names n ?ac (Src _ f ?pp)] => destruct (IH ltac:(discriminate) P n ac f pp rest ltac:(cbn in L |- *; lia)) as (xs & q & Ex & Bx) end.
    rewrite Ex. eexists (_ :: xs), q. rewrite <- app_assoc. split; [reflexivity|]. cbn [map] in *. rewrite Bx. reflexivity.
Qed.
Lemma binder_head b w : binder_text b w -> exists c r, w = c :: r /\ ~ white c.
Proof. intros [a I|g ps G P N]; [apply ident_head in I as (c & r & -> & H); exists c, r; split; [reflexivity|chars]|eexists _, _; split; [reflexivity|chars]]. Qed.
Lemma binding_ok b w g e t f p s r rest : binder_text b w -> Forall white g -> spelled py md e t -> binder_ends b (g ++ t) ->
  (length t + length r <= size)%nat -> follows e r -> starts_tail r ->
  exists lv x q, ps_binding k (Src (w ++ g ++ t ++ r ++ rest) f p) s = Ok (gap (Src (r ++ rest) f q), (lv, x), s) /\ bare_lval lv = tree_binder b /\ bare x = tree e.
Proof.
  intros B G Se Be L Fo T. set (R := g ++ t ++ r ++ rest).
  assert (X : exists lv q, bind (if sis ch_open (Src (w ++ R) f p) then
       let* (sou, l) := lift (binding_names (S (length (s_txt (Src (w ++ R) f p)))) [] (gap (sfrom 1 (Src (w ++ R) f p)))) in
       ret (sou, LList l)
     else match ps_atom (Src (w ++ R) f p) with
          | (_, None) => fail "ps_binding: name expected"%string
          | (sou, Some leg) => ret (sou, LAtom leg)
          end) (fun a => ret a) s = Ok (Src R f q, lv, s) /\ bare_lval lv = tree_binder b).
  { destruct B as [a I|g0 ps G0 P N]; cbn [tree_binder binder_ends] in *.
    - pose proof I as B'. apply ident_head in B' as (c1 & r1 & E1 & H1).
      assert (Es : forall T, sis ch_open (Src (a ++ T) f p) = false) by (intros; rewrite E1; cbn [app]; rewrite sis_char; chars). rewrite Es.
      assert (St : stops_at name_char R).
      { subst R. rewrite app_assoc. apply stops_more; [exact Be|]. apply spelled_head in Se as (c & x & -> & _). destruct g; discriminate. }
      rewrite ps_atom_ident by assumption. eexists (LAtom _), _. split; reflexivity.
    - cbn [app]. rewrite sis_char. change (40 =? ch_open) with true. cbv iota. unfold sfrom. cbn [s_txt s_file s_pos skipn]. rewrite <- !app_assoc.
      change (lit ")" ++ ?x) with (41 :: x).
      match goal with |- context [gap (Src _ f ?pp)] => pose proof (gap_run g0 (param_text ps ++ 41 :: R) f pp G0 (param_text_stops ps R P)) as Eg end. rewrite Eg.
      match goal with |- context [binding_names ?n _ (Src _ f ?pp)] => destruct (binding_names_ok ps N P n [] f pp R) as (xs & q & Ex & Bx) end.
      { cbn [length]. rewrite !app_length. pose proof (params_ok_length ps P). lia. }
      rewrite Ex. eexists (LList _), q. split; [reflexivity|]. cbn [bare_lval app]. rewrite Bx. reflexivity. }
  destruct X as (lv & q & Ex & Bx). unfold ps_binding.
  match type of Ex with bind ?m _ s = _ => assert (Em : m s = Ok (Src R f q, lv, s)) by (unfold bind at 1 in Ex; destruct (m s) as [[u s']|z|]; [exact Ex|discriminate|discriminate]) end.
  rewrite (bind_ok _ _ _ _ _ Em). cbv beta iota. clear Ex Em. subst R. destruct (gap_spelled cx g e t (r ++ rest) f q G Se) as [q0 ->].
  destruct (form_at cx k size Hform e t r f q0 s rest Se L Fo T) as (x & q' & Ex & Bx').
  rewrite (bind_ok _ _ _ _ _ Ex). cbv beta iota. exists lv, x, q'. split; [reflexivity|]. split; assumption.
Qed.
Lemma closed_ok tag z f p rest : closed_by tag z -> exists q, skip_tag (92 :: tag) (gap (Src (z ++ rest) f p)) = Src (41 :: rest) f q.
Proof.
  intros [g G|g g' G G']; rewrite <- !app_assoc.
  - change (lit ")" ++ rest) with (41 :: rest). destruct (gap_over g 41 rest f p G ltac:(chars)) as [q ->]. exists q. reflexivity.
  - cbn [app]. rewrite <- !app_assoc. change (lit ")" ++ rest) with (41 :: rest). destruct (gap_over g 92 (tag ++ g' ++ 41 :: rest) f p G ltac:(chars)) as [q ->].
    unfold skip_tag. change (92 :: tag ++ g' ++ 41 :: rest) with ((92 :: tag) ++ g' ++ 41 :: rest). unfold sstarts. cbn [s_txt]. rewrite startswith_app, sfrom_app.
    apply gap_over; [exact G'|chars].
Qed.
Lemma let_reads b e body g1 w g2 t g3 u z : Forall white g1 -> binder_text b w -> Forall white g2 -> spelled py md e t -> Forall white g3 ->
  spelled py md body u -> closed_by (lit "let") z -> binder_ends b (g2 ++ t) -> follows e (g3 ++ u) -> follows body z ->
  (length (lit "($let" ++ g1 ++ w ++ g2 ++ t ++ g3 ++ u ++ z) <= size)%nat ->
  forall f p s rest, exists x q, ps_let k (Src ((lit "($let" ++ g1 ++ w ++ g2 ++ t ++ g3 ++ u ++ z) ++ rest) f p) s = Ok (Src rest f q, Some x, s) /\ bare x = tree (ELet b e body).
Proof.
  intros G1 Bt G2 Se G3 Sb Cb Be Fe Fb L f p s rest. rewrite !app_length in L. change (length (lit "($let")) with 5%nat in L.
  rewrite <- !app_assoc. unfold ps_let. unfold sstarts at 1. cbn [s_txt]. change (startswith ps_LET (lit "($let" ++ ?x)) with true. cbn [negb]. cbv iota.
  assert (G : exists q, gap (sfrom 5 (Src (lit "($let" ++ g1 ++ w ++ g2 ++ t ++ g3 ++ u ++ z ++ rest) f p)) = Src (w ++ g2 ++ t ++ (g3 ++ u) ++ z ++ rest) f q).
  { unfold sfrom. cbn [s_txt s_file s_pos]. change (skipn 5 (lit "($let" ++ ?x)) with x. rewrite <- app_assoc.
    apply binder_head in Bt as (c' & r' & -> & H'). cbn [app]. apply gap_over; assumption. }
  destruct G as [q0 G]. rewrite G.
  destruct (binding_ok b w g2 e t f q0 s (g3 ++ u) (z ++ rest) Bt G2 Se Be ltac:(rewrite app_length; lia) Fe (spelled_tail _ _ _ _ _ G3 Sb)) as (lv & x & q1 & Ex & Bl & Bx). rewrite (bind_ok _ _ _ _ _ Ex). cbv beta iota.
  rewrite gap_gap. rewrite <- app_assoc. destruct (gap_spelled cx g3 body u (z ++ rest) f q1 G3 Sb) as [q2 ->].
  destruct (form_at cx k size Hform body u z f q2 s rest Sb ltac:(lia) Fb (closed_tail _ _ Cb)) as (y & q3 & Ey & By).
  rewrite (bind_ok _ _ _ _ _ Ey). cbv beta iota. rewrite gap_gap.
  destruct (closed_ok (lit "let") z f q3 rest Cb) as [q4 Ec]. change ps_LET_T with (92 :: lit "let"). rewrite Ec. rewrite sis_char. change (41 =? ch_close) with true. cbv iota.
  unfold sfrom. cbn [s_txt s_file s_pos skipn]. eexists _, _. split; [reflexivity|]. cbn [bare tree]. rewrite Bl, Bx, By. reflexivity.
Qed.
Lemma let_lform r f p s x q : ps_let k (Src (lit "($let" ++ r) f p) s = Ok (q, Some x, s) -> ps_l_form k (Src (lit "($let" ++ r) f p) s = Ok (q, Some x, s).
Proof.
  intros Ex. set (t := lit "($let" ++ r) in *.
  assert (Et : exists r', t = 40 :: 36 :: 108 :: r') by (eexists; reflexivity). destruct Et as [r' Et].
  unfold ps_l_form. rewrite (bind_ok (ps_code k _) _ s (Src t f p, None) s).
  2: { rewrite Et. apply no_code; [discriminate..|reflexivity]. }
  cbv beta iota. rewrite (bind_ok (ps_infix k _) _ s (Src t f p, None) s).
  2: { rewrite Et. apply no_infix; [discriminate|reflexivity]. }
  cbv beta iota. rewrite (bind_ok _ _ _ _ _ Ex). reflexivity.
Qed.

(** ** Texts *)
Lemma space_blank b r f p : Forall blank b -> stops_at blank r -> fst (ps_space (Src (b ++ r) f p)) = Src r f (p + Z.of_nat (length b)).
Proof.
  intros B R. unfold ps_space. cbn [s_txt]. rewrite (longest_run_len ps_SPACE blank (b ++ r) b r ps_SPACE_spec) by (split; [reflexivity|split; assumption]).
  cbn [fst]. unfold sfrom. cbn [s_txt s_file s_pos]. rewrite skipn_length_app. reflexivity.
Qed.
Lemma code_reads t d f p s rest : text_reads k DCode t d ->
  exists g q, ps_code k (Src (lit "($code" ++ t ++ lit ")" ++ rest) f p) s = Ok (Src rest f q, Some (tg_leg g), s) /\ stands_for (tg_ast g) d.
Proof.
  intros R. destruct (R f (p + Z.of_nat 6)%Z s rest) as (g & q & E & S). cbn [closing stop_of] in E.
  exists g, q. split; [|exact S]. set (T := t ++ lit ")" ++ rest) in *. change (lit "($code" ++ T) with (40 :: 36 :: 99 :: 111 :: 100 :: 101 :: T).
  unfold ps_code. rewrite !sis_char. change (40 =? ch_sq_close) with false. change (40 =? ch_sq_open) with false. cbv iota.
  unfold sstarts at 1. cbn [s_txt]. change (startswith ps_CODE (40 :: 36 :: 99 :: 111 :: 100 :: 101 :: T)) with true. cbv iota.
  unfold sfrom. cbn [s_txt s_file s_pos skipn]. rewrite (bind_ok _ _ _ _ _ E). reflexivity.
Qed.
Lemma infix_reads t d f p s rest : text_reads k DInfix t d ->
  exists g p' q, ps_infix k (Src (lit "(${}" ++ t ++ lit ")" ++ rest) f p) s = Ok (Src rest f q, Some (NInfix (tg_leg g) f p'), s) /\ stands_for (tg_ast g) d.
Proof.
  intros R. destruct (R f (p + Z.of_nat 4)%Z s rest) as (g & q & E & S). cbn [closing stop_of] in E.
  exists g, (p + 1)%Z, q. split; [|exact S]. set (T := t ++ lit ")" ++ rest) in *. change (lit "(${}" ++ T) with (40 :: 36 :: 123 :: 125 :: T).
  unfold ps_infix. rewrite !sis_char. change (40 =? ch_lbrace) with false. cbv iota.
  unfold sstarts at 1. cbn [s_txt]. change (startswith ps_INFIX (40 :: 36 :: 123 :: 125 :: T)) with true. cbv iota.
  unfold sfrom. cbn [s_txt s_file s_pos skipn]. rewrite (bind_ok _ _ _ _ _ E). reflexivity.
Qed.
Lemma comma_reads t d f p s r u : drive_text k stop_comma (Src r f (p + Z.of_nat 2)) s = Ok (u, d, s) ->
  t = 44 :: 44 :: r -> ps_code k (Src t f p) s = Ok (u, Some (tg_leg d), s).
Proof.
  intros E ->. unfold ps_code. rewrite !sis_char. change (44 =? ch_sq_close) with false. change (44 =? ch_sq_open) with false. cbv iota.
  unfold sstarts at 1 2. cbn [s_txt]. change (startswith ps_CODE (44 :: ?x)) with false. change (startswith ps_DUALCOMMA (44 :: 44 :: ?x)) with true. cbv iota.
  unfold sfrom. cbn [s_txt s_file s_pos skipn]. rewrite (bind_ok _ _ _ _ _ E). reflexivity.
Qed.
Lemma block_reads b c t ind d f p s rest : Forall blank b -> line_end c -> text_reads k (DBlock ind) t d ->
  exists g q, ps_code k (Src (93 :: (b ++ [c]) ++ t ++ (10 :: ind ++ lit "[") ++ rest) f p) s = Ok (Src rest f q, Some (tg_leg g), s) /\ stands_for (tg_ast g) d.
Proof.
  intros Bb Lc R. destruct (R f (p + Z.of_nat 1 + Z.of_nat (length b) + Z.of_nat 1)%Z s rest) as (g & q & E & S). cbn [closing stop_of kept app] in E.
  exists g, q. split; [|exact S]. cbn [app]. set (T := t ++ 10 :: (ind ++ lit "[") ++ rest) in *. rewrite <- app_assoc. cbn [app].
  unfold ps_code. rewrite !sis_char. change (93 =? ch_sq_close) with true. cbv iota.
  unfold sfrom at 1. cbn [s_txt s_file s_pos skipn].
  rewrite space_blank; [|exact Bb|cbn; chars]. unfold ps_eol. cbn [s_txt].
  replace (ps_EOL c) with true by (unfold ps_EOL, line_end in *; lia).
  unfold sfrom. cbn [s_txt s_file s_pos skipn]. rewrite (bind_ok _ _ _ _ _ E). reflexivity.
Qed.
Lemma text_lform dl o t d : delim_ok dl -> opens dl o -> written py md dl level t d -> (length (o ++ t ++ ending dl) <= size)%nat ->
  lform_reads k (EText dl t d) (o ++ t ++ ending dl).
Proof.
  intros Dk Op Wr L f p s rest Fo. rewrite !app_length in L. rewrite <- !app_assoc.
  assert (Lt : (S (length t) < size)%nat).
  { clear -L Dk Op. destruct Op as [dl|ind b c B Lc]; [|cbn in L; rewrite !app_length in L; cbn in L; lia].
    destruct dl; cbn in L; rewrite ?app_length in L; cbn in L; try lia; destruct Dk. }
  pose proof (Htext dl t d Dk Wr Lt) as R. unfold ps_l_form.
  destruct Op as [dl|ind b c Bb Lc].
  2: { destruct (block_reads b c t ind d f p s rest Bb Lc R) as (g & q & Ec & S). cbn [ending closing app] in *. rewrite (bind_ok _ _ _ _ _ Ec). cbv beta iota. eexists _, _. split; [reflexivity|]. apply bare_text, S. }
  destruct dl as [| |ind| |w| | |]; cbn [opening ending closing tree stop_of follows] in *; [..|destruct Dk].
  - change (lit "[" ++ ?x) with (91 :: x). destruct (R f (p + Z.of_nat 1)%Z s rest) as (g & q & E & S).
    assert (Ec : ps_code k (Src (91 :: t ++ lit "]" ++ rest) f p) s = Ok (Src rest f q, Some (tg_leg g), s)).
    { unfold ps_code. rewrite !sis_char. change (91 =? ch_sq_close) with false. change (91 =? ch_sq_open) with true. cbv iota.
      unfold sfrom. cbn [s_txt s_file s_pos skipn]. rewrite (bind_ok _ _ _ _ _ E). reflexivity. }
    rewrite (bind_ok _ _ _ _ _ Ec). cbv beta iota. eexists _, _. split; [reflexivity|]. apply bare_text, S.
  - change (lit "{" ++ ?x) with (123 :: x). destruct (R f (p + Z.of_nat 1)%Z s rest) as (g & q & E & S).
    assert (Ec : ps_infix k (Src (123 :: t ++ lit "}" ++ rest) f p) s = Ok (Src rest f q, Some (NInfix (tg_leg g) f p), s)).
    { unfold ps_infix. rewrite !sis_char. change (123 =? ch_lbrace) with true. cbv iota.
      unfold sfrom. cbn [s_txt s_file s_pos skipn]. rewrite (bind_ok _ _ _ _ _ E). reflexivity. }
    rewrite (bind_ok _ _ _ _ _ (no_code 123 _ f p s ltac:(discriminate) ltac:(discriminate) ltac:(discriminate) eq_refl)). cbv beta iota.
    rewrite (bind_ok _ _ _ _ _ Ec). cbv beta iota. eexists _, _. split; [reflexivity|]. cbn [bare]. f_equal. apply bare_text, S.
  - destruct (block_reads [] 10 t ind d f p s rest ltac:(constructor) ltac:(left; reflexivity) R) as (g & q & Ec & S). cbn [app] in *. rewrite (bind_ok _ _ _ _ _ Ec). cbv beta iota. eexists _, _. split; [reflexivity|]. apply bare_text, S.
  - change (lit ",," ++ ?x) with (44 :: 44 :: x). destruct (R f (p + Z.of_nat 2)%Z s rest) as (g & q & E & S). cbn [kept app] in E.
    rewrite (bind_ok _ _ _ _ _ (comma_reads _ g f p s _ _ E eq_refl)). cbv beta iota. eexists _, _. split; [reflexivity|]. apply bare_text, S.
  - destruct Fo as [x ->]. change (lit ",," ++ ?x) with (44 :: 44 :: x). destruct (R f (p + Z.of_nat 2)%Z s x) as (g & q & E & S). cbn [kept closing stop_of app] in E |- *.
    rewrite (bind_ok _ _ _ _ _ (comma_reads _ g f p s _ _ E eq_refl)). cbv beta iota. eexists _, _. split; [reflexivity|]. apply bare_text, S.
  - destruct (code_reads t d f p s rest R) as (g & q & Ec & S).
    rewrite (bind_ok _ _ _ _ _ Ec). cbv beta iota. eexists _, _. split; [reflexivity|]. apply bare_text, S.
  - destruct (infix_reads t d f p s rest R) as (g & p' & q & Ec & S). change (lit "(${}" ++ t ++ lit ")" ++ rest) with (40 :: 36 :: 123 :: 125 :: t ++ lit ")" ++ rest) in *.
    rewrite (bind_ok _ _ _ _ _ (no_code 40 (36 :: 123 :: 125 :: t ++ lit ")" ++ rest) f p s ltac:(discriminate) ltac:(discriminate) ltac:(discriminate) eq_refl)). cbv beta iota.
    rewrite (bind_ok _ _ _ _ _ Ec). cbv beta iota. eexists _, _. split; [reflexivity|]. cbn [bare]. f_equal. apply bare_text, S.
Qed.
Lemma lform_ok e t : spelled py md e t -> is_lform e = true -> (length t <= size)%nat -> lform_reads k e t.
Proof.
  intros [sg sf w v suf S1 S2 S3|q body Py Q Li|w Py Li|o body Q P B|v V|l u It|ev tight f args named g u r G Sf Fo K Ar|ps body u r N P Sb I|v body g1 g2 g3 r V G1 G2 G3 Sb I|b e0 body g1 w g2 u g3 u2 z G1 Bt G2 Se G3 Sb Cb Be Fe Fb|c e1 t1 g1 g2 u S1 I1 G1 G2 Sc Ic Fo|c e1 e0 t1 g1 g2 u g3 g4 t0 S1 I1 G1 G2 Sc Ic Fo G3 G4 S0 Fc|k0 o u d D O W] If L; try discriminate.
  - apply list_reads; [assumption|cbn [length] in L; lia].
  - intros f0 p s rest _. apply app_reads; assumption.
  - intros f0 p s rest _. destruct (let_reads b e0 body g1 w g2 u g3 u2 z G1 Bt G2 Se G3 Sb Cb Be Fe Fb L f0 p s rest) as (x & q & Ex & Bx).
    exists x, q. split; [|exact Bx]. rewrite <- app_assoc in *. apply let_lform, Ex.
  - apply text_lform; assumption.
Qed.

(** ** Functions *)
Lemma params_no_paren ps u T f p : parameters py md ps u -> ps <> [] -> sis ch_bslash (Src (u ++ T) f p) = true /\ sstarts (lit "\(") (Src (u ++ T) f p) = false.
Proof.
  intros P N. pose proof P as P'. apply params_head in P' as [r E]; [|exact N]. split; [rewrite E; reflexivity|]. clear r E.
  assert (K : forall a R, identifier a -> startswith (lit "\(") (92 :: a ++ R) = false).
  { intros a R I. apply ident_head in I as (c & r1 & -> & Hc). change (lit "\(") with [92; 40]. cbn [app startswith]. replace (40 =? c) with false by chars. reflexivity. }
  unfold sstarts. cbn [s_txt]. destruct P as [|late w a qs g r L I G P|late w a e u g1 g2 qs r L I Se G1 F G2 P|g qs r G P]; [contradiction N; reflexivity| | |].
  - destruct L as [|b l g' r' Ib G' L]; cbn [app]; rewrite <- !app_assoc; [|]; (apply K; assumption).
  - destruct L as [|b l g' r' Ib G' L]; cbn [app]; rewrite <- !app_assoc; [|]; (apply K; assumption).
  - reflexivity.
Qed.
Lemma lambda_reads ps body t r : ps <> [] -> parameters py md ps t -> spelled py md body r -> is_lform body = true ->
  (length (t ++ r) <= size)%nat -> forall f p s rest, follows body rest ->
  exists x q, ps_lambda k (Src ((t ++ r) ++ rest) f p) s = Ok (Src rest f q, Some x, s) /\ bare x = tree (ELambda ps body).
Proof.
  intros N P B I L f p s rest Fo. rewrite app_length in L. pose proof B as Bh. apply lform_head in Bh as (ch & r' & E & Hch); [|exact I].
  rewrite <- app_assoc. unfold ps_lambda. destruct (params_no_paren ps t (r ++ rest) f p P N) as [-> ->]. cbn [negb]. cbv iota.
  rewrite E. cbn [app]. cbn [s_txt].
  destruct (bounds_ok cx k size Hform ps t P ltac:(lia)) with (n := S (length (t ++ ch :: r' ++ rest))) (bound := @nil (list source * source * node)) (f := f) (p := p) (s := s) (ch := ch) (t := r' ++ rest) as (xs & q & Ex & Bx).
  - exact Hch.
  - rewrite app_length. pose proof (steps_length cx ps t P). lia.
  - rewrite (bind_ok _ _ _ _ _ Ex). cbv beta iota. rewrite app_comm_cons, <- E.
    destruct (lform_ok body r B I ltac:(lia) f q s rest Fo) as (y & q' & Ey & By). rewrite (bind_ok _ _ _ _ _ Ey). cbv beta iota. eexists _, _. split; [reflexivity|].
    cbn [bare tree app]. rewrite Bx, By. reflexivity.
Qed.
Lemma lambdav_reads v body g1 g2 g3 r : var_ok v -> Forall white g1 -> Forall white g2 -> Forall white g3 -> spelled py md body r -> is_lform body = true ->
  (length (lit "\(" ++ g1 ++ show_var v ++ g2 ++ lit ")." ++ g3 ++ r) <= size)%nat -> forall f p s rest, follows body rest ->
  exists x q, ps_lambda k (Src ((lit "\(" ++ g1 ++ show_var v ++ g2 ++ lit ")." ++ g3 ++ r) ++ rest) f p) s = Ok (Src rest f q, Some x, s) /\ bare x = tree (ELambdaV v body).
Proof.
  intros V G1 G2 G3 B I L f p s rest Fo. rewrite !app_length in L. pose proof B as Bh. apply lform_head in Bh as (ch & r' & E & Hch); [|exact I]. unfold opens_lform in Hch.
  rewrite <- !app_assoc. unfold ps_lambda. change (lit "\(" ++ ?x) with (92 :: 40 :: x). rewrite sis_char. change (92 =? ch_bslash) with true. cbn [negb]. cbv iota.
  unfold sstarts at 1. cbn [s_txt]. change (startswith (lit "\(") (92 :: 40 :: ?x)) with true. cbv iota.
  unfold sfrom at 1. cbn [s_txt s_file s_pos skipn]. pose proof V as V'. apply var_head in V' as (c & r1 & Ev & Hc).
  change (lit ")." ++ ?x) with (41 :: 46 :: x).
  assert (Gv : exists q, gap (Src (g1 ++ show_var v ++ g2 ++ 41 :: 46 :: g3 ++ r ++ rest) f (p + Z.of_nat 2)) = Src (show_var v ++ g2 ++ 41 :: 46 :: g3 ++ r ++ rest) f q) by (rewrite Ev; cbn [app]; apply gap_over; [exact G1|chars]).
  destruct Gv as [q0 ->].
  destruct (variable_ok v f q0 (g2 ++ 41 :: 46 :: g3 ++ r ++ rest) V) as (rg & a & q & Ex & Br & Ba); [apply delimited_gap; [exact G2|chars..]|].
  rewrite (bind_ok _ _ _ _ _ (lift_ok _ _ s Ex)). cbv beta iota. destruct (gap_over g2 41 (46 :: g3 ++ r ++ rest) f q G2 ltac:(chars)) as [q1 ->].
  unfold sstarts at 1. cbn [s_txt]. change (startswith (lit ").") (41 :: 46 :: ?x)) with true. cbn [negb]. cbv iota.
  unfold sfrom at 1. cbn [s_txt s_file s_pos skipn]. rewrite E. cbn [app].
  match goal with |- context [gap (Src _ f ?pp)] => destruct (gap_over g3 ch (r' ++ rest) f pp G3 ltac:(chars)) as [q2 ->] end. rewrite app_comm_cons, <- E.
  destruct (lform_ok body r B I ltac:(lia) f q2 s rest Fo) as (y & q' & Ey & By).
  rewrite (bind_ok _ _ _ _ _ Ey). cbv beta iota. eexists _, _. split; [reflexivity|]. cbn [bare tree]. rewrite Br, Ba, By. reflexivity.
Qed.

(** ** Formers *)
Lemma no_value c r f p : ~ head_char c \/ c = 92 \/ c = 41 -> ~ white c -> c <> 43 -> c <> 40 -> (forall a q r', c :: r = a ++ q :: r' -> Forall letter a -> ~ quotes q) ->
  ps_value cx (Src (c :: r) f p) = Ok (Src (c :: r) f p, None).
Proof.
  intros H W P O Q. unfold ps_value. rewrite no_quote_at; [|unfold quotes; chars|exact O|exact Q]. apply no_number; chars.
Qed.
Lemma not_letter_string c r : ~ letter c -> ~ quotes c -> forall a q r', c :: r = a ++ q :: r' -> Forall letter a -> ~ quotes q.
Proof. intros L Q [|b a] q r' E F; cbn in E; injection E as -> _; [exact Q|]. apply Forall_inv in F. contradiction. Qed.
(** an l-form is read as such *)
Lemma lform_former e t f p s rest : spelled py md e t -> is_lform e = true -> (length t <= size)%nat -> follows e rest ->
  exists x q, ps_former cx k (Src (t ++ rest) f p) s = Ok (Src rest f q, Some x, s) /\ bare x = tree e.
Proof.
  intros W I L Fo. destruct (lform_ok e t W I L f p s rest Fo) as (x & q & Ex & Bx).
  assert (H : exists c r, t ++ rest = c :: r /\ opens_lform c /\ (c = 40 -> startswith ps_BQUOTE (40 :: r) = false /\ startswith ps_QUOTE (40 :: r) = false)).
  { destruct W as [sg sf w v suf S1 S2 S3|q' body Py Q Li|w Py Li|o body Q P B|v V|l u It|ev tight g args named w u r G Sf Fg K Ar|ps body u r N P Sb I'|v body g1 g2 g3 r V G1 G2 G3 Sb I'|b e0 body g1 w g2 u g3 u2 z G1 Bt G2 Se G3 Sb Cb Be Fe Fb|c e1 t1 g1 g2 u S1 I1 G1 G2 Sc Ic Fc|c e1 e0 t1 g1 g2 u g3 g4 t0 S1 I1 G1 G2 Sc Ic Fg G3 G4 S0 Fc|k0 o u d D O W]; try discriminate.
    - apply items_open in It as (c & r & -> & C1 & C2). eexists _, _. split; [reflexivity|]. split; [left; reflexivity|]. intros _. cbn [app]. destruct (paren_kw c (r ++ rest) C1 C2) as (_ & _ & _ & _ & K5 & K6). auto.
    - destruct (app_reads ev tight g args named w u r Sf G Fg K Ar L f p s rest) as ((U & Et & NW) & _). rewrite Et. eexists _, _. split; [reflexivity|]. split; [left; reflexivity|]. intros _. apply no_word_at in NW. tauto.
    - eexists _, _. split; [reflexivity|]. split; [left; reflexivity|]. intros _. split; reflexivity.
    - pose proof O as O'. apply (opens_head _ _ D) in O' as (c & r & E & H). rewrite E. eexists _, _. split; [reflexivity|]. split; [exact H|]. intros ->.
      destruct O as [k0|ind b c B Lc]; [|discriminate E]. destruct k0; try discriminate E; cbn in E; injection E as <-; split; reflexivity. }
  destruct H as (c & r & E & Hc & Hq). unfold ps_former. rewrite E in *. unfold opens_lform in Hc.
  assert (V : ps_value cx (Src (c :: r) f p) = Ok (Src (c :: r) f p, None)).
  { unfold ps_value. destruct (N.eq_dec c 40) as [-> | Nc].
    - destruct (Hq eq_refl) as [Q1 Q2]. rewrite no_quote_paren by assumption. apply no_number; chars.
    - rewrite no_quote_at; [apply no_number; chars|unfold quotes; lia|lia|]. apply not_letter_string; [chars|unfold quotes; lia]. }
  rewrite (bind_ok _ _ _ _ _ (lift_ok _ _ s V)). cbv beta iota.
  rewrite (bind_ok _ _ _ _ _ (lift_ok _ _ s (no_variable c r f p ltac:(chars) ltac:(lia)))). cbv beta iota.
  rewrite (bind_ok _ _ s (Src (c :: r) f p, None) s) by (unfold ps_lambda; rewrite sis_char; replace (c =? ch_bslash) with false by chars; reflexivity). cbv beta iota. exists x, q. split; [exact Ex|exact Bx].
Qed.
Lemma slash_former t f p s rest x q : (exists r, t = 92 :: r) -> ps_lambda k (Src (t ++ rest) f p) s = Ok (Src rest f q, Some x, s) ->
  ps_former cx k (Src (t ++ rest) f p) s = Ok (Src rest f q, Some x, s).
Proof.
  intros [r E] Ex. unfold ps_former. rewrite E in *. cbn [app] in *.
  rewrite (bind_ok _ _ _ _ _ (lift_ok _ _ s (no_value 92 (r ++ rest) f p ltac:(chars) ltac:(chars) ltac:(discriminate) ltac:(discriminate) ltac:(apply not_letter_string; unfold quotes; chars)))). cbv beta iota.
  rewrite (bind_ok _ _ _ _ _ (lift_ok _ _ s (no_variable 92 (r ++ rest) f p ltac:(chars) ltac:(discriminate)))). cbv beta iota.
  rewrite (bind_ok _ _ _ _ _ Ex). cbv beta iota. reflexivity.
Qed.
Lemma former_ok e t : spelled py md e t -> is_former e = true -> (length t <= size)%nat -> former_reads cx k e t.
Proof.
  intros W I L f p s rest D. destruct (is_lform e) eqn:If; [apply lform_former; assumption|]. revert W L D If I.
  intros [sg sf w v suf S1 S2 S3|q body Py Q Li|w Py Li|o body Q P B|v V|l u It|ev tight g args named w u r G Sf Fg K Ar|ps body u r N P Sb Il|v body g1 g2 g3 r V G1 G2 G3 Sb Il|b e0 body g1 w g2 u g3 u2 z G1 Bt G2 Se G3 Sb Cb Be Fe Fb|c e1 t1 g1 g2 u S1 I1 G1 G2 Sc Ic Fc|c e1 e0 t1 g1 g2 u g3 g4 t0 S1 I1 G1 G2 Sc Ic Fg G3 G4 S0 Fc|k0 o u d D O W]; intros L Fo If I; try discriminate; cbn [follows] in Fo.
  - unfold ps_former. cbn [tree]. destruct (sign_head sg sf w v suf S1 S2) as (c & r & E & H).
    assert (V : ps_value cx (Src ((sg ++ w ++ suf) ++ rest) f p) = Ok (Src rest f (p + Z.of_nat (length (sg ++ w ++ suf))), Some (NInt (sf v)))).
    { unfold ps_value. replace (ps_quote py (Src ((sg ++ w ++ suf) ++ rest) f p)) with (Ok (Src ((sg ++ w ++ suf) ++ rest) f p, @None node)).
      - rewrite <- !app_assoc. apply number_int; try assumption. apply delimited_number, Fo.
      - symmetry. rewrite E. cbn [app]. apply no_quote_at; [unfold quotes; chars|chars|]. apply not_letter_string; unfold quotes; chars. }
    rewrite (bind_ok _ _ _ _ _ (lift_ok _ _ s V)). cbv beta iota. eexists _, _. split; reflexivity.
  - unfold ps_former. cbn [tree].
    assert (V : exists p', ps_value cx (Src ((q :: body ++ [q]) ++ rest) f p) = Ok (Src rest f p', Some (NStr (raw (q :: body ++ [q]))))).
    { unfold ps_value, ps_quote. rewrite Py. cbn [s_txt].
      assert (T : c_literal q ((q :: body ++ [q]) ++ rest) = Some (length (q :: body ++ [q]))).
      { unfold c_literal. cbn [app]. rewrite N.eqb_refl. rewrite <- app_assoc. cbn [app]. rewrite literal_tail by (try assumption; chars). cbn [option_map length]. rewrite app_length. cbn [length]. f_equal. lia. }
      destruct Q as [-> | ->].
      - change ch_dquote with 34. rewrite T. rewrite sfrom_app. rewrite firstn_length_app. eexists. reflexivity.
      - replace (c_literal ch_dquote ((39 :: body ++ [39]) ++ rest)) with (@None nat) by reflexivity. change ch_squote with 39. rewrite T. rewrite sfrom_app, firstn_length_app. eexists. reflexivity. }
    destruct V as [p' V]. rewrite (bind_ok _ _ _ _ _ (lift_ok _ _ s V)). cbv beta iota. eexists _, _. split; reflexivity.
  - unfold ps_former. cbn [tree].
    assert (V : ps_value cx (Src (w ++ rest) f p) = Ok (Src rest f (p + Z.of_nat (length w)), Some (NStr (sto (length w) (Src (w ++ rest) f p))))).
    { unfold ps_value, ps_quote, ps_string_python. rewrite Py. cbn [s_txt]. rewrite (python_string w rest (literal_delimited w rest Li Fo)). rewrite sfrom_app. reflexivity. }
    rewrite (bind_ok _ _ _ _ _ (lift_ok _ _ s V)). cbv beta iota. eexists _, _. split; [reflexivity|]. cbn [bare]. rewrite sto_app. reflexivity.
  - unfold ps_former. cbn [tree]. rewrite <- !app_assoc. change (lit ")" ++ rest) with (41 :: rest).
    destruct (quote_ok py o body rest f p Q P B) as (sr & Eq & Es & _).
    assert (V : ps_value cx (Src (o ++ body ++ 41 :: rest) f p) = Ok (Src rest f (p + Z.of_nat (length o + length body + 1)), Some (NStr sr))) by (unfold ps_value; rewrite Eq; reflexivity).
    rewrite (bind_ok _ _ _ _ _ (lift_ok _ _ s V)). cbv beta iota. eexists _, _. split; [reflexivity|]. cbn [bare]. unfold bare_src. rewrite Es. reflexivity.
  - unfold ps_former. cbn [tree].
    assert (N : ps_value cx (Src (show_var v ++ rest) f p) = Ok (Src (show_var v ++ rest) f p, None)).
    { unfold ps_value. rewrite variable_no_quote by assumption. pose proof V as V'. apply var_head in V' as (c & r & -> & H). apply no_number; chars. }
    rewrite (bind_ok _ _ _ _ _ (lift_ok _ _ s N)). cbv beta iota. destruct (variable_ok v f p rest V Fo) as (rg & a & q & Ex & Br & Ba).
    rewrite (bind_ok _ _ _ _ _ (lift_ok _ _ s Ex)). cbv beta iota. eexists _, _. split; [reflexivity|]. cbn [bare]. rewrite Br, Ba. reflexivity.
  - destruct (lambda_reads ps body u r N P Sb Il L f p s rest Fo) as (x & q & Ex & Bx). exists x, q. split; [|exact Bx].
    apply slash_former; [|exact Ex]. apply params_head in P as [r0 ->]; [|exact N]. eexists. reflexivity.
  - destruct (lambdav_reads v body g1 g2 g3 r V G1 G2 G3 Sb Il L f p s rest Fo) as (x & q & Ex & Bx). exists x, q. split; [|exact Bx].
    apply slash_former; [|exact Ex]. eexists. reflexivity.
Qed.

(** ** Forms *)
Lemma form_ok e t f p s rest : spelled py md e t -> (length t <= size)%nat -> follows e rest -> no_branch rest ->
  exists x q, ps_form cx k (Src (t ++ rest) f p) s = Ok (gap (Src rest f q), Some x, s) /\ bare x = tree e.
Proof.
  intros W L Fo Nb. destruct (is_former e) eqn:I.
  - destruct (former_ok e t W I L f p s rest Fo) as (x & q & Ex & Bx). unfold ps_form. rewrite (bind_ok _ _ _ _ _ Ex). cbv beta iota.
    unfold ch_quest. rewrite gap_head_not by auto. eexists _, _. split; [reflexivity|exact Bx].
  - assert (Mo : forall e' g c r, follows e' (g ++ [c]) -> g ++ [c] <> [46] -> follows e' (g ++ c :: r)).
    { intros e' g c r F N. replace (g ++ c :: r) with ((g ++ [c]) ++ r) by (rewrite <- app_assoc; reflexivity). apply follows_more; [exact F|destruct g; discriminate|exact N]. }
    assert (Nd : forall g c, c <> 46 -> Forall white g -> g ++ [c] <> [46]).
    { intros g c C G E. destruct G as [|a g A G]; cbn [app] in E; [congruence|]. injection E as -> _. chars. }
    revert W L Fo I. intros [sg sf w v suf S1 S2 S3|q body Py Q Li|w Py Li|o body Q P B|v V|l u It|ev tight g args named w u r G Sf Fg K Ar|ps body u r N P Sb Il|v body g1 g2 g3 r V G1 G2 G3 Sb Il|b e0 body g1 w g2 u g3 u2 z G1 Bt G2 Se G3 Sb Cb Be Fe Fb|c e1 t1 g1 g2 u S1 I1 G1 G2 Sc Ic F1|c e1 e0 t1 g1 g2 u g3 g4 t0 S1 I1 G1 G2 Sc Ic F1 G3 G4 S0 Fc|k0 o u d D O W]; intros L Fo I; try discriminate; cbn [follows] in Fo;
      rewrite !app_length in L; cbn [length] in L; rewrite !app_length in L; try (cbn [length] in L; rewrite app_length in L); rewrite <- !app_assoc; cbn [app]; rewrite <- !app_assoc.
    + destruct (former_ok e1 t1 S1 I1 ltac:(lia) f p s (g1 ++ 63 :: g2 ++ u ++ rest)) as (x & q & Ex & Bx); [apply Mo; [exact F1|apply Nd; [discriminate|exact G1]]|].
      unfold ps_form. rewrite (bind_ok _ _ _ _ _ Ex). cbv beta iota.
      destruct (gap_over g1 63 (g2 ++ u ++ rest) f q G1 ltac:(chars)) as [q1 ->]. rewrite sis_char. change (63 =? ch_quest) with true. cbv iota. unfold sfrom at 1. cbn [s_txt s_file s_pos skipn].
      match goal with |- context [gap (Src _ f ?pp)] => destruct (gap_spelled cx g2 c u rest f pp G2 Sc) as [q2 ->] end.
      destruct (former_ok c u Sc Ic ltac:(lia) f q2 s rest Fo) as (y & q3 & Ey & By).
      rewrite (bind_ok _ _ _ _ _ Ey). cbv beta iota. unfold ch_bar. rewrite gap_head_not by auto. eexists _, _. split; [reflexivity|]. cbn [bare tree]. rewrite Bx, By. reflexivity.
    + cbn [app]. rewrite <- !app_assoc.
      destruct (former_ok e1 t1 S1 I1 ltac:(lia) f p s (g1 ++ 63 :: g2 ++ u ++ g3 ++ 124 :: g4 ++ t0 ++ rest)) as (x & q & Ex & Bx); [apply Mo; [exact F1|apply Nd; [discriminate|exact G1]]|].
      unfold ps_form. rewrite (bind_ok _ _ _ _ _ Ex). cbv beta iota.
      destruct (gap_over g1 63 (g2 ++ u ++ g3 ++ 124 :: g4 ++ t0 ++ rest) f q G1 ltac:(chars)) as [q1 ->]. rewrite sis_char. change (63 =? ch_quest) with true. cbv iota. unfold sfrom at 1. cbn [s_txt s_file s_pos skipn].
      match goal with |- context [gap (Src _ f ?pp)] => destruct (gap_spelled cx g2 c u (g3 ++ 124 :: g4 ++ t0 ++ rest) f pp G2 Sc) as [q2 ->] end.
      destruct (former_ok c u Sc Ic ltac:(lia) f q2 s (g3 ++ 124 :: g4 ++ t0 ++ rest)) as (y & q3 & Ey & By); [apply Mo; [exact Fc|apply Nd; [discriminate|exact G3]]|].
      rewrite (bind_ok _ _ _ _ _ Ey). cbv beta iota.
      destruct (gap_over g3 124 (g4 ++ t0 ++ rest) f q3 G3 ltac:(chars)) as [q4 ->]. rewrite sis_char. change (124 =? ch_bar) with true. cbv iota. unfold sfrom at 1. cbn [s_txt s_file s_pos skipn].
      match goal with |- context [gap (Src (g4 ++ _) f ?pp)] => destruct (gap_spelled cx g4 e0 t0 rest f pp G4 S0) as [q5 ->] end.
      destruct (Hform e0 t0 S0 ltac:(lia) f q5 s rest Fo Nb) as (z & q6 & Ez & Bz).
      rewrite (bind_ok _ _ _ _ _ Ez). cbv beta iota. eexists _, _. split; [reflexivity|]. cbn [bare tree]. rewrite Bx, By, Bz. reflexivity.
Qed.
Lemma close_none f p s r : ps_form cx k (Src (41 :: r) f p) s = Ok (Src (41 :: r) f p, None, s).
Proof.
  unfold ps_form. rewrite (bind_ok _ _ s (Src (41 :: r) f p, None) s); [reflexivity|].
  unfold ps_former. rewrite (bind_ok _ _ _ _ _ (lift_ok _ _ s (no_value 41 r f p ltac:(chars) ltac:(chars) ltac:(discriminate) ltac:(discriminate) ltac:(apply not_letter_string; unfold quotes; chars)))). cbv beta iota.
  rewrite (bind_ok _ _ _ _ _ (lift_ok _ _ s (no_variable 41 r f p ltac:(chars) ltac:(discriminate)))). cbv beta iota.
  rewrite (bind_ok _ _ s (Src (41 :: r) f p, None) s) by reflexivity. cbv beta iota.
  unfold ps_l_form. rewrite (bind_ok _ _ _ _ _ (no_code 41 r f p s ltac:(discriminate) ltac:(discriminate) ltac:(discriminate) eq_refl)). cbv beta iota.
  rewrite (bind_ok _ _ _ _ _ (no_infix 41 r f p s ltac:(discriminate) eq_refl)). cbv beta iota.
  rewrite (bind_ok _ _ _ _ _ (no_let (41 :: r) f p s eq_refl)). cbv beta iota. rewrite (bind_ok _ _ _ _ _ (no_app (41 :: r) f p s eq_refl)). cbv beta iota. reflexivity.
Qed.
End Rules.

