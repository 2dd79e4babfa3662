(** * Imports in trees are bracketed *)
From Coq Require Import List NArith ZArith Bool Lia ZifyBool ZifyNat ZifyN.
From Verif Require Import PyStr PyStrFacts Ast Lex LexSpec LexFacts Parse ParseSpec ParseFacts ParseFacts2 ParseFacts3 ParseFacts4 ParseFacts5 Eval EvalSpec EvalFacts EvalFacts3 EvalFacts4.
Import ListNotations.
Open Scope N_scope.
Open Scope monad_scope.

Definition unmarked (x : node) : Prop := x <> NImportBegin /\ x <> NImportEnd.
Lemma complete_app a b : complete a -> complete b -> complete (a ++ b).
Proof.
  induction 1 as [|x l A B H IH|m l Hm _ Hl IH]; intros Hb; cbn [app]; [exact Hb|constructor; auto|].
  rewrite <- app_assoc. cbn [app]. apply CO_import; auto.
Qed.
Lemma complete_enclosed l : complete l -> complete (enclose_import l).
Proof. intros H. unfold enclose_import. destruct l as [|x l]; [constructor|]. apply (CO_import (x :: l) []); [exact H|constructor]. Qed.
Lemma complete_one x : unmarked x -> complete [x].
Proof. intros [A B]. constructor; [exact A|exact B|constructor]. Qed.
Lemma complete_unmarked l : Forall unmarked l -> complete l.
Proof. induction 1 as [|x l [A B] F IH]; constructor; assumption. Qed.
Lemma complete_snoc_inv l x : unmarked x -> complete (l ++ [x]) -> complete l.
Proof.
  intros [A B] H. remember (l ++ [x]) as t eqn:E. revert l E. induction H as [|y t Ay By H IH|m t Hm IHm Ht IHt]; intros l E.
  - destruct l; discriminate.
  - destruct l as [|z l]; [constructor|]. cbn in E. injection E as <- ->. constructor; [exact Ay|exact By|]. apply IH. reflexivity.
  - destruct (exists_last (l := NImportEnd :: t) ltac:(discriminate)) as (u & z & Eu).
    assert (z = x).
    { rewrite Eu in E. change (NImportBegin :: m ++ u ++ [z]) with ((NImportBegin :: m ++ u ++ [z])) in E.
      rewrite app_assoc, app_comm_cons in E. apply app_inj_tail in E. apply E. }
    subst z. destruct u as [|y u]; [cbn in Eu; congruence|]. cbn in Eu. injection Eu as <- ->.
    assert (El : l = NImportBegin :: m ++ NImportEnd :: u).
    { change (NImportBegin :: m ++ NImportEnd :: u ++ [x]) with (NImportBegin :: m ++ (NImportEnd :: u) ++ [x]) in E.
      rewrite app_assoc, app_comm_cons in E. apply app_inj_tail in E. destruct E as [E _]. symmetry. exact E. }
    subst l. apply CO_import; [exact Hm|]. apply IHt. reflexivity.
Qed.

Lemma bind_inv {A B} (m : M A) (f : A -> M B) s r : bind m f s = Ok r -> exists a s1, m s = Ok (a, s1) /\ f a s1 = Ok r.
Proof. unfold bind. destruct (m s) as [[a s1]|e|]; intros H; [eauto|discriminate|discriminate]. Qed.
Lemma lift_inv {A} (r : res A) s a s1 : lift r s = Ok (a, s1) -> r = Ok a /\ s1 = s.
Proof. unfold lift. destruct r as [x|e|]; intros H; [injection H as <- <-; auto|discriminate|discriminate]. Qed.
Ltac minv H :=
  repeat (cbv beta zeta in H;
  match type of H with
  | bind _ _ _ = Ok _ => let a := fresh "a" in let s := fresh "s" in let E := fresh "E" in apply bind_inv in H as (a & s & E & H)
  | ret _ _ = Ok _ => unfold ret in H
  | fail _ _ = Ok _ => discriminate H
  | throw _ _ = Ok _ => discriminate H
  | Fuel = Ok _ => discriminate H
  | Err _ = Ok _ => discriminate H
  | Ok _ = Ok _ => injection H as <- <- <- || (injection H; clear H; intros; subst)
  | match ?x with _ => _ end = Ok _ => destruct x eqn:?
  | match ?x with _ => _ end _ = Ok _ => destruct x eqn:?
  end).
Ltac nomark := split; discriminate.

Section Shape.
Variables (cx : pctx) (imp : text -> M (list node)) (k : self).
Lemma set_shape sou s r x s' : ps_set k sou s = Ok (r, Some x, s') -> unmarked x.
Proof. unfold ps_set. intros H. minv H; nomark. Qed.
Lemma let_shape sou s r x s' : ps_let k sou s = Ok (r, Some x, s') -> unmarked x.
Proof. unfold ps_let. intros H. minv H; nomark. Qed.
Lemma code_shape sou s r x s' : ps_code k sou s = Ok (r, Some x, s') -> unmarked x.
Proof. unfold ps_code. intros H. minv H; nomark. Qed.
Lemma emit_shape sou s r x s' : ps_emit k sou s = Ok (r, Some x, s') -> unmarked x.
Proof. unfold ps_emit. intros H. minv H; nomark. Qed.
Lemma infix_shape sou s r x s' : ps_infix k sou s = Ok (r, Some x, s') -> unmarked x.
Proof. unfold ps_infix. intros H. minv H; nomark. Qed.
Lemma application_shape sou s r x s' : ps_application k sou s = Ok (r, Some x, s') -> unmarked x.
Proof.
  unfold ps_application. intros H. minv H; try nomark; first [match goal with |- unmarked (if ?b then _ else _) => destruct b; nomark end|eapply code_shape; eassumption|eapply emit_shape; eassumption|eapply infix_shape; eassumption].
Qed.
Lemma macro_shape sou r x : ps_macro sou = Ok (r, Some x) -> unmarked x.
Proof. unfold ps_macro. intros H. minv H; nomark. Qed.
Lemma comment_shape sou r x : ps_comment sou = Ok (r, Some x) -> unmarked x.
Proof. unfold ps_comment. intros H. minv H; nomark. Qed.
Lemma backquote_shape sou r x : ps_backquote sou = Ok (r, Some x) -> unmarked x.
Proof. unfold ps_backquote. intros H. cbv zeta in H. destruct (if sstarts ps_BQUOTE sou then _ else _); minv H; nomark. Qed.
Lemma quote_shape py sou r x : ps_quote py sou = Ok (r, Some x) -> unmarked x.
Proof.
  unfold ps_quote, ps_string_python. intros H.
  destruct py.
  - destruct (py_string_len (s_txt sou)) as [[n|]|e|]; try discriminate; [|eapply backquote_shape, H]. injection H as _ <-. nomark.
  - destruct (c_literal ch_dquote (s_txt sou)); [injection H as _ <-; nomark|].
    destruct (c_literal ch_squote (s_txt sou)); [injection H as _ <-; nomark|]. eapply backquote_shape, H.
Qed.
Lemma remark_shape sou r x : ps_remark_c sou = Ok (r, Some x) -> unmarked x.
Proof. unfold ps_remark_c. intros H. minv H; nomark. Qed.

Hypothesis Himp : forall key s l s', imp key s = Ok (l, s') -> complete l.
Lemma import_shape sou s r l s' : ps_import cx imp k sou s = Ok (r, Some l, s') -> complete l.
Proof.
  unfold ps_import. intros H. destruct (negb _); [discriminate|]. cbv zeta in H. apply bind_inv in H as ([u items] & s1 & E & H).
  cbv beta iota zeta in H. destruct (sis _ _); [|discriminate]. injection H as _ <- _. revert E. generalize (gap (sfrom 8 sou)). intros sou0 E.
  destruct (ps_atom sou0) as [sou1 [leg|]].
  - apply bind_inv in E as (key & s2 & E1 & E). apply bind_inv in E as (ast & s3 & E2 & E). injection E as _ <- _. apply complete_enclosed. eapply Himp, E2.
  - apply bind_inv in E as ([sou2 leg] & s2 & E1 & E). cbv beta iota in E. destruct (leg_quote leg) as [q|].
    + cbv zeta in E. destruct (splitext _) as [fn e]. destruct (teqb _ _).
      * apply bind_inv in E as (? & s3 & E2 & E). injection E as _ <- _. constructor.
      * apply bind_inv in E as (key & s3 & E2 & E). apply bind_inv in E as (ast & s4 & E3 & E). injection E as _ <- _. apply complete_enclosed. eapply Himp, E3.
    + apply bind_inv in E as ([sou3 leg3] & s3 & E2 & E). cbv beta iota in E. destruct (leg_infix leg3) as [[[ast file] pos]|]; [|discriminate].
      apply bind_inv in E as (key & s4 & E3 & E). apply bind_inv in E as (ast' & s5 & E4 & E). injection E as _ <- _. eapply Himp, E4.
Qed.
Lemma item_shape sou s r l s' : text_item cx imp k sou s = Ok (r, Some l, s') -> complete l.
Proof.
  unfold text_item. intros H.
  apply bind_inv in H as ([u [x|]] & s1 & E & H); cbv beta iota in H; [injection H as _ <- _; eapply complete_one, set_shape, E|clear E].
  apply bind_inv in H as ([u1 [x|]] & s2 & E & H); cbv beta iota in H; [injection H as _ <- _; eapply complete_one, let_shape, E|clear E].
  apply bind_inv in H as ([u2 [x|]] & s3 & E & H); cbv beta iota in H; [injection H as _ <- _; eapply import_shape, E|clear E].
  apply bind_inv in H as ([u3 [x|]] & s4 & E & H); cbv beta iota in H; [apply lift_inv in E as [E _]; injection H as _ <- _; eapply complete_one, macro_shape, E|clear E].
  apply bind_inv in H as ([u4 [x|]] & s5 & E & H); cbv beta iota in H; [apply lift_inv in E as [E _]; injection H as _ <- _; eapply complete_one, comment_shape, E|clear E].
  apply bind_inv in H as ([u5 [x|]] & s6 & E & H); cbv beta iota in H; [injection H as _ <- _; eapply complete_one, application_shape, E|clear E].
  apply bind_inv in H as ([u6 [x|]] & s7 & E & H); cbv beta iota in H; [apply lift_inv in E as [E _]; injection H as _ <- _; eapply complete_one, quote_shape, E|clear E].
  destruct (c_skip cx).
  - discriminate.
  - apply bind_inv in H as ([u7 [x|]] & s8 & E & H); cbv beta iota in H; [|discriminate]. apply lift_inv in E as [E _]. injection H as _ <- _. eapply complete_one, remark_shape, E.
  - destruct (ps_remark_python u6) as [u7 [x|]]; [|discriminate]. injection H as _ <- _. apply complete_one. nomark.
Qed.
End Shape.

(** ** Texts *)
Section Text.
Variables (cx : pctx) (imp : text -> M (list node)).
Hypothesis Himp : forall key s l s', imp key s = Ok (l, s') -> complete l.
Lemma items_shape k n : forall ast sou s r ast' s', complete ast -> text_items cx imp n k ast sou s = Ok (r, ast', s') -> complete ast'.
Proof.
  induction n as [|n IH]; intros ast sou s r ast' s' C H; [discriminate|]. cbn [text_items] in H.
  apply bind_inv in H as ([u [l|]] & s1 & E & H); cbv beta iota in H.
  - eapply IH; [|exact H]. apply complete_app; [exact C|]. eapply item_shape; [exact Himp|exact E].
  - injection H as _ <- _. exact C.
Qed.
End Text.

Lemma imports_fine cx n :
  name_import_ok True anything (fun _ => True) keeps cx (yuparse cx n) /\ other_imports_ok True anything (fun _ => True) keeps cx (yuparse cx n).
Proof.
  assert (Tr : forall a b c, keeps a b -> keeps b c -> keeps a c) by (intros a b c A B k Hk; apply B, A, Hk).
  assert (Im : forall lib once s1, okm True (fun _ => True) keeps (let* k := import_source cx lib once in yuparse cx n k) s1 (fun l s' => Forall (good anything s') l)).
  { intros lib once s1. unfold okm, bind at 1.
    destruct (once && dict_mem lib (y_source s1)) eqn:B.
    - apply andb_prop in B. destruct B as [-> B]. rewrite (import_known _ _ _ B). apply (yuparse_keeps cx n source_empty s1).
    - rewrite import_new by (apply andb_false_iff in B; exact B). destruct (c_read cx (lib_path cx lib)) as [c|] eqn:R; [|exact I].
      set (s2 := set_source _ _). assert (G2 : keeps s1 s2) by (apply keeps_set).
      pose proof (yuparse_keeps cx n lib s2) as IH. unfold okm in IH.
      destruct (yuparse cx n lib s2) as [[l s3]|e|]; try exact IH. destruct IH as (A1 & A2 & A3).
      split; [exact A1|]. split; [eapply Tr; eassumption|exact A3]. }
  split; [intros lib s1 _; apply Im|]. split; [intros lib s1 _; apply Im|]. split.
  - intros f s1 _. unfold okm, import_python, bind, get_st, lift, modify, ret. cbv beta iota.
    destruct (existsb _ _); [split; [exact I|split; [intros k Hk; exact Hk|exact I]]|].
    destruct (c_pyimport cx _); try exact I. split; [exact I|]. split; [intros k Hk; exact Hk|exact I].
  - intros ast f p s1 _. unfold okm, import_eval, bind, get_st, lift, modify, ret. cbv beta iota.
    destruct (c_evalimport cx _) as [sou|e|]; try exact I. cbv beta iota.
    set (s2 := set_source _ _).
    assert (G2 : keeps s1 s2). { intros k Hk. unfold s2. cbn [y_source set_source set_inclusion]. rewrite dict_mem_set', Hk. apply orb_true_r. }
    pose proof (yuparse_keeps cx n (nat_text (length (y_inclusion s1))) s2) as IH. unfold okm in IH. fold s2.
    destruct (yuparse cx n _ s2) as [[l s3]|e|]; try exact IH. destruct IH as (A1 & A2 & A3).
    split; [exact A1|]. split; [eapply Tr; eassumption|exact A3].
Qed.

Section Gen.
Variables (key src : text) (cx : pctx) (d : nat).
Notation imp := (yuparse cx d).
Notation at_ := (at_ key src).
Notation len := (length src).
Notation tg_ok := (tg_ok key src anything).
Hypothesis Himp : forall key s l s', imp key s = Ok (l, s') -> complete l.

Lemma trivial_knot n :
  (forall i s, (i <= len)%nat -> (len - i < n)%nat -> True -> okm True (fun _ => True) keeps (k_form (knot cx imp n) (at_ i)) s (node_ok key src anything i)) /\
  (forall g i s, tg_ok s g i -> (len - i < n)%nat -> True -> okm True (fun _ => True) keeps (k_next (knot cx imp n) g) s (next_ok key src anything g i)).
Proof.
  destruct (imports_fine cx d) as [A B].
  apply knot_ok; auto; try (intros; exact I).
  - intros s k H; exact H.
  - intros a b c X Y k H. apply Y, X, H.
Qed.
Lemma item_walk n i s r l s' : (i <= len)%nat -> (len - i <= n)%nat -> text_item cx imp (knot cx imp n) (at_ i) s = Ok (r, l, s') ->
  match l with Some _ => exists j, (i < j <= len)%nat /\ r = at_ j | None => r = at_ i end.
Proof.
  intros H L E. destruct (imports_fine cx d) as [A B]. destruct (trivial_knot n) as [KF KN].
  pose proof (text_item_ok key src True anything (fun _ => True) keeps) as T.
  specialize (T ltac:(intros ? k Hk; exact Hk) ltac:(intros a b c X Y k Hk; apply Y, X, Hk) ltac:(auto) ltac:(intros; exact I) cx imp (knot cx imp n) n KF KN (fun _ => A) (or_intror B) i s H L I).
  unfold okm in T. rewrite E in T. destruct T as (_ & _ & T). unfold items_ok, moved in T. cbn in T.
  destruct l as [l|]; [|exact T]. destruct T as (j & J & -> & _). eauto.
Qed.
Lemma items_walk n m : forall ast i s r ast' s', (i <= len)%nat -> (len - i <= n)%nat ->
  text_items cx imp m (knot cx imp n) ast (at_ i) s = Ok (r, ast', s') -> exists j, (i <= j <= len)%nat /\ r = at_ j /\ (j = i -> ast' = ast).
Proof.
  induction m as [|m IH]; intros ast i s r ast' s' H L E; [discriminate|]. cbn [text_items] in E.
  apply bind_inv in E as ([u l] & s1 & Ei & E). cbv beta iota in E. pose proof (item_walk n i s u l s1 H L Ei) as W. destruct l as [l|].
  - destruct W as (j & J & ->). apply IH in E as (j2 & J2 & -> & _); [|lia|lia]. exists j2. split; [lia|]. split; [reflexivity|lia].
  - subst u. injection E as <- <- _. exists i. split; [lia|]. auto.
Qed.

Definition kept (g : tgen) : Prop :=
  complete (tg_ast g) /\ match tg_plain g with None => True | Some pg => s_txt (tg_sou g) = tg_ret g -> exists ast0, tg_ast g = ast0 ++ [pg_leg pg] end.
Definition placed (g : tgen) (i : nat) : Prop :=
  tg_sou g = at_ i /\ (i <= len)%nat /\ (tg_plain g = None \/ exists pg j, tg_plain g = Some pg /\ pg_ok key src pg j /\ (j <= i)%nat /\ tg_ret g = skipn j src).
Lemma unmarked_leg pg : unmarked (pg_leg pg).
Proof. unfold pg_leg. nomark. Qed.
Lemma plain_kept g i g' : placed g i -> kept g -> text_plain g = Ok g' -> placed g' (S i) /\ kept g'.
Proof.
  intros (Eg & H & Pl) [C K]. unfold text_plain.
  set (nonempty := match tg_ast g with [] => false | _ => true end).
  set (reuse := teqb (s_txt (tg_sou g)) (tg_ret g) && nonempty).
  assert (Kp : match (if reuse then tg_plain g else Some (plain_start (tg_sou g) (tg_sq g) (tg_pth g) (if nonempty then IndNone else IndStr []))) with
              | None => True | Some pg => pg_ok key src pg i end).
  { destruct reuse eqn:R.
    - unfold reuse in R. apply andb_prop in R. destruct R as [R _]. apply teqb_eq in R. rewrite Eg in R. cbn in R.
      destruct Pl as [->|(pg & j & -> & Po & J & Et)]; [exact I|]. rewrite Et in R.
      assert (j = i) by (apply (f_equal (@length _)) in R; rewrite !skipn_length in R; lia). subst j. exact Po.
    - rewrite Eg. exists i. cbn. repeat split; lia. }
  assert (Fa : (if reuse then tg_plain g else Some (plain_start (tg_sou g) (tg_sq g) (tg_pth g) (if nonempty then IndNone else IndStr []))) <> None ->
               complete (if reuse then removelast (tg_ast g) else tg_ast g)).
  { destruct reuse eqn:R; [|intros _; exact C]. unfold reuse in R. apply andb_prop in R as [R _]. apply teqb_eq in R.
    destruct (tg_plain g) as [pg|]; [|congruence]. intros _. destruct (K R) as (ast0 & E). rewrite E, removelast_last. rewrite E in C.
    eapply complete_snoc_inv; [apply unmarked_leg|exact C]. }
  cbv zeta. set (ast := if reuse then removelast (tg_ast g) else tg_ast g) in *. clearbody ast.
  destruct (if reuse then tg_plain g else _) as [pg|]; [|discriminate]. specialize (Fa ltac:(discriminate)).
  pose proof (plain_next_ok key src pg i Kp) as P. destruct (plain_next pg) as [pg'|e|]; cbn [okr] in *; try discriminate.
  destruct P as (Li & K'). intros E. injection E as <-. split.
  - unfold placed. cbn [tg_sou tg_plain tg_ret]. rewrite (pg_rest_at _ _ _ _ K'). split; [reflexivity|]. split; [lia|]. right. exists pg', (S i).
    split; [reflexivity|]. split; [exact K'|]. split; [lia|]. exact (f_equal s_txt (pg_rest_at _ _ _ _ K')).
  - split; cbn [tg_ast tg_plain].
    + apply complete_app; [exact Fa|apply complete_one, unmarked_leg].
    + eauto.
Qed.
Lemma next_kept n g i s g' s' : placed g i -> kept g -> (len - i <= n)%nat -> text_next cx imp (knot cx imp n) g s = Ok (g', s') ->
  exists j, placed g' j /\ kept g' /\ (i <= j)%nat.
Proof.
  intros P K L E. unfold text_next in E. apply bind_inv in E as (g1 & s1 & E1 & E).
  assert (X : exists j, placed g1 j /\ kept g1 /\ (i <= j)%nat).
  { destruct (tg_started g).
    - apply lift_inv in E1 as [E1 _]. destruct (plain_kept g i g1 P K E1). exists (S i). auto.
    - injection E1 as <- _. exists i. auto. }
  destruct X as (j & P1 & [C K1] & J). destruct P1 as (Eg & Hj & Pl). rewrite Eg in E.
  apply bind_inv in E as ([sou ast] & s2 & E2 & E). cbv beta iota in E. injection E as <- _.
  destruct (items_walk n _ _ _ _ _ _ _ Hj ltac:(lia) E2) as (j2 & J2 & -> & Same).
  exists j2. split; [|split; [|lia]].
  - unfold placed. cbn [tg_sou tg_plain tg_ret]. split; [reflexivity|]. split; [lia|]. destruct Pl as [->|(pg & q & -> & Po & Q & Et)]; [left; reflexivity|right].
    exists pg, q. split; [reflexivity|]. split; [exact Po|]. split; [lia|exact Et].
  - split; cbn [tg_ast tg_plain tg_sou tg_ret].
    + eapply items_shape; [exact Himp|exact C|exact E2].
    + destruct Pl as [->|(pg & q & Ep & Po & Q & Et)]; [exact I|]. rewrite Ep in *. rewrite Et in *. cbn. intros X.
      assert (j2 = q) by (apply (f_equal (@length _)) in X; rewrite !skipn_length in X; lia). subst q.
      assert (j2 = j) by lia. subst j2. rewrite (Same eq_refl). apply K1. rewrite Eg. reflexivity.
Qed.
End Gen.

Section Whole.
Variables (key src : text) (cx : pctx) (d : nat).
Hypothesis Himp : forall key s l s', yuparse cx d key s = Ok (l, s') -> complete l.

Lemma drive_kept n stop m : forall g i s r g' s', placed key src g i -> kept g -> (length src - i <= n)%nat ->
  drive m (knot cx (yuparse cx d) (S n)) stop g s = Ok (r, g', s') -> kept g'.
Proof.
  induction m as [|m IH]; intros g i s r g' s' P K L E; [discriminate|]. cbn [drive knot k_next] in E.
  apply bind_inv in E as (g1 & s1 & E1 & E).
  destruct (next_kept key src cx d Himp n g i s g1 s1 P K L E1) as (j & P1 & K1 & J).
  destruct (stop g1) as [rest|]; [injection E as _ <- _; exact K1|].
  eapply IH; [exact P1|exact K1|lia|exact E].
Qed.
End Whole.

Lemma header_loop_unmarked n : forall acc sou rest h sh, header_loop n acc sou = Some (rest, h, sh) -> Forall unmarked acc -> Forall unmarked h.
Proof.
  induction n as [|n IH]; intros acc sou rest h sh E F; cbn [header_loop] in E; [discriminate|].
  destruct (ps_remark_python _) as [r1 [leg|]]; [|discriminate].
  destruct (coding_search (s_txt leg)) as [[|]|].
  - injection E as _ <- _. apply Forall_app. split; [exact F|]. unfold header_encoding. repeat (apply Forall_cons; [nomark|]). constructor.
  - injection E as _ <- _. exact F.
  - destruct (ps_eol r1) as [r2 [eol|]].
    + eapply IH; [exact E|]. apply Forall_app. split; [exact F|]. repeat (apply Forall_cons; [nomark|]). constructor.
    + eapply IH; [exact E|]. apply Forall_app. split; [exact F|]. repeat (apply Forall_cons; [nomark|]). constructor.
Qed.

(** Whatever yuparse returns is complete: every import mark it opens it closes. *)
Lemma yuparse_complete cx n : forall key s l s', yuparse cx n key s = Ok (l, s') -> complete l.
Proof.
  induction n as [|n IH]; intros key s l s' E; [discriminate|]. cbn [yuparse] in E. unfold yuparse_with in E.
  apply bind_inv in E as (st & s1 & E0 & E). injection E0 as <- <-.
  destruct (dict_get key (y_source s)) as [[dd src]|]; [|discriminate].
  destruct src as [|c0 src0]; [injection E as <- _; constructor|]. remember (c0 :: src0) as src eqn:Esrc. clear Esrc c0 src0.
  apply bind_inv in E as ([sou header] & s1 & Eh & E). cbv beta iota in E.
  assert (H : exists j, (j <= length src)%nat /\ sou = at_ key src j /\ match header with Some h => Forall unmarked h | None => True end).
  { destruct (teqb (c_main cx) key && c_python cx).
    - assert (T : okm True (fun _ => True) keeps (ps_header_python (at_ key src 0)) s
                    (fun r s' => exists j, (j <= length src)%nat /\ fst r = at_ key src j /\ match snd r with Some h => Forall (good anything s') h | None => True end)).
      { eapply header_ok; auto.
        all: try (intros a b c X Y k Hk; apply Y, X, Hk).
        all: try (intros s0 k Hk; exact Hk).
        intros m s0 _. split; [exact I|intros k Hk; exact Hk]. }
      change (Src src (Some key) 0) with (at_ key src 0) in Eh. unfold okm in T. rewrite Eh in T. destruct T as (_ & _ & j & J & T & _).
      cbn in T. exists j. split; [exact J|]. split; [exact T|].
      unfold ps_header_python in Eh. destruct (ps_eol _) as [r1 eol]. destruct (header_loop _ [] r1) as [[[r2 h] sh]|] eqn:El.
      + injection Eh as _ <- _. eapply header_loop_unmarked; [exact El|constructor].
      + injection Eh as _ <- _. exact I.
    - injection Eh as <- <- _. exists O. split; [lia|]. split; [reflexivity|exact I]. }
  destruct H as (j & J & -> & Hh).
  destruct (s_txt (at_ key src j)) eqn:Et; [discriminate|]. rewrite <- Et in E. clear Et.
  apply bind_inv in E as ([r g] & s2 & Ed & E). cbv beta iota in E. injection E as <- _.
  assert (K : kept g).
  { unfold drive_text in Ed. eapply drive_kept in Ed; [exact Ed|exact IH| | |].
    - unfold placed, text_start. cbn. split; [reflexivity|]. split; [exact J|]. left. reflexivity.
    - split; [constructor|exact I].
    - rewrite at_len. lia. }
  destruct K as [K _]. destruct header as [h|]; [|exact K].
  destruct (tg_ast g) eqn:Eg; [exact K|]. rewrite <- Eg in *. apply complete_app; [apply complete_unmarked, Hh|exact K].
Qed.

Lemma complete_cut a b : complete a -> complete (a ++ b) -> complete b.
Proof.
  intros Ha. induction Ha as [|x l A B H IH|m l Hm IHm Hl IH]; intros Hb; [exact Hb| |].
  - apply IH. cbn in Hb. inversion Hb; subst; [assumption|congruence].
  - apply IH. cbn [app] in Hb. rewrite <- app_assoc in Hb. cbn [app] in Hb.
    inversion Hb as [|x l0 A B H0|m' l' Hm' Hl' E]; subst; [congruence|].
    assert (K : forall m m' r r', complete m -> complete m' -> m ++ NImportEnd :: r = m' ++ NImportEnd :: r' -> r = r').
    { clear. intros m m' r r' H H' E. apply (f_equal (scan 0)) in E. rewrite !scan_complete in E by assumption. injection E as ->. reflexivity. }
    rewrite <- (K _ _ _ _ Hm' Hm E). exact Hl'.
Qed.
Lemma mark_not_skip ec parse x e s e1 s1 : evals ec parse x e s NSkip e1 s1 -> unmarked x.
Proof. intros [n E]. split; intros ->; destruct n; discriminate E. Qed.

(** What stands behind an item of a parsed file is complete. *)
Lemma rest_complete ec parse x e s e1 s1 a m : evals ec parse x e s NSkip e1 s1 -> complete a -> complete (a ++ x :: m) -> complete m.
Proof.
  intros Hv Ha H. apply mark_not_skip in Hv. destruct Hv as [A B]. apply (complete_cut a) in H; [|exact Ha].
  inversion H; subst; [assumption|congruence].
Qed.
Lemma file_skips cx n key st st' ec parse a x m e s e1 s1 :
  yuparse cx n key st = Ok (a ++ x :: m, st') -> complete a -> x <> NComment -> evals ec parse x e s NSkip e1 s1 ->
  (forall after ind, same_outcomes ec parse (NT (x :: m ++ NImportEnd :: after) ind) e s (NT after ind) e1 s1) /\
  (forall ind, same_outcomes ec parse (NT (x :: m) ind) e s (NT [] ind) e1 s1).
Proof.
  intros Y Ha Hx Hv. apply yuparse_complete in Y. pose proof (rest_complete _ _ _ _ _ _ _ _ _ Hv Ha Y) as Hm. split; intros.
  - apply skip_to_end_of_module; assumption.
  - apply skip_to_end; [assumption|assumption|]. apply never_closed_complete, Hm.
Qed.
Lemma import_bracketed cx n k g name g' rest f p s r l s' : identifier name -> Forall white g -> Forall white g' ->
  text_item cx (yuparse cx n) k (Src (import_text g name g' ++ rest) f p) s = Ok (r, l, s') ->
  exists key s1 m, yuparse cx n key s1 = Ok (m, s') /\ l = Some match m with [] => [] | _ => NImportBegin :: m ++ [NImportEnd] end.
Proof.
  intros In Wg Wg' E. rewrite text_item_import in E by assumption.
  apply bind_inv in E as (key & s1 & _ & E). apply bind_inv in E as (m & s2 & Em & E). injection E as _ <- <-.
  exists key, s1, m. split; [exact Em|]. reflexivity.
Qed.
