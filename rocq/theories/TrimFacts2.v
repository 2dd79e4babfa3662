(** Trimming with browse information (proofs only). *)
From Coq Require Import List NArith ZArith Bool Lia ZifyBool ZifyNat ZifyN.
From Verif Require Import PyStr Ast Lex Parse Final PyStrFacts FinalSpec FinalFacts TrimSpec TrimFacts.
Import ListNotations.
Open Scope N_scope.

(** ** The lines of a text, kept with their ends *)
Fixpoint kept (lines : list text) : list text :=
  match lines with
  | [] => []
  | [l] => match l with [] => [] | _ => [l] end
  | l :: r => (l ++ [10]) :: kept r
  end.
Lemma keep_join lines : Forall no_break lines -> splitlines_keep (join [10] lines) = kept lines.
Proof.
  induction 1 as [|l r Hl Hr IH]; [reflexivity|]. destruct r as [|l2 r].
  - cbn [join kept]. destruct l; [reflexivity|]. apply keep_end; [exact Hl|discriminate].
  - change (join [10] (l :: l2 :: r)) with (l ++ 10 :: join [10] (l2 :: r)). rewrite keep_line, IH by exact Hl. reflexivity.
Qed.
Lemma leading_lf l : leading (l ++ [10]) = leading l.
Proof.
  unfold leading. induction l as [|c l IH]; [reflexivity|]. cbn [app span_len]. destruct (ps_SPACE c); [|reflexivity].
  cbn [firstn]. f_equal. exact IH.
Qed.
Lemma line_empty_lf l : no_break l -> line_empty (l ++ [10]) = is_blank l.
Proof.
  unfold line_empty. induction 1 as [|c l Hc Hl IH]; [reflexivity|].
  change ((c :: l) ++ [10]) with (c :: (l ++ [10])). cbn [span_len is_blank forallb]. destruct (ps_SPACE c) eqn:E; cbn [skipn andb]; [exact IH|].
  destruct (teqb_spec (c :: l ++ [10]) [10]) as [H|H]; [|reflexivity].
  injection H as _ H. destruct l; discriminate H.
Qed.
Lemma line_empty_no_lf l : no_break l -> line_empty l = false.
Proof.
  unfold line_empty. intros Hl. destruct (teqb_spec (skipn (span_len ps_SPACE l) l) [10]) as [H|H]; [|reflexivity].
  assert (Hin : In 10 l). { rewrite <- (firstn_skipn (span_len ps_SPACE l) l), H. apply in_or_app. right. left. reflexivity. }
  unfold no_break in Hl. rewrite Forall_forall in Hl. specialize (Hl 10 Hin). discriminate Hl.
Qed.

(** ** The shared indentation *)
Definition kline (k : text) : Prop := exists l, (k = l \/ k = l ++ [10]) /\ no_break l /\ ~ blank l.
Lemma kline_full k : kline k -> line_empty k = false.
Proof.
  intros (l & [->| ->] & Hn & Hb); [apply line_empty_no_lf, Hn|]. rewrite line_empty_lf by exact Hn. apply is_blank_false, Hb.
Qed.
Definition comparable (a b : text) : Prop := prefix a b \/ prefix b a.
Definition cut_text (c : option text) : text := match c with Some t => t | None => [] end.
Lemma cutting_none lines : cutting_loop lines None = None.
Proof. induction lines as [|l r IH]; [reflexivity|]. cbn [cutting_loop]. destruct (line_empty l); exact IH. Qed.
Lemma prefix_refl a : prefix a a.
Proof. exists []. rewrite app_nil_r. reflexivity. Qed.
Lemma leading_blank l : blank (leading l).
Proof. destruct (leading_spec l) as (b & _ & H & _). exact H. Qed.
Lemma leading_prefix l : prefix (leading l) l.
Proof. destruct (leading_spec l) as (b & H & _). exists b. exact H. Qed.
Lemma cutting_spec ks : forall c, Forall kline ks -> c <> [] -> blank c ->
  (forall k, In k ks -> comparable c (leading k)) ->
  (forall k k', In k ks -> In k' ks -> comparable (leading k) (leading k')) ->
  let m := cut_text (cutting_loop ks (Some c)) in
  prefix m c /\ (forall k, In k ks -> prefix m k) /\
  forall c', blank c' -> prefix c' c -> (forall k, In k ks -> prefix c' k) -> prefix c' m.
Proof.
  induction ks as [|k ks IH]; intros c Hk Hne Hbc Hc Hp; cbn [cutting_loop cut_text].
  - split; [apply prefix_refl|]. split; [intros k []|auto].
  - inversion Hk as [|? ? Hk1 Hk2]; subst. rewrite (kline_full k Hk1).
    assert (Hnil : leading k = [] -> forall c', blank c' -> prefix c' k -> c' = []).
    { intros E c' Hb Hpre. apply prefix_leading in Hpre; [|exact Hb]. rewrite E in Hpre. destruct Hpre as [d Hd]. destruct c'; [reflexivity|discriminate]. }
    destruct (leading k) as [|i0 i] eqn:Ei.
    + rewrite cutting_none. cbn [cut_text]. split; [exists c; reflexivity|]. split; [intros k' _; exists k'; reflexivity|].
      intros c' Hb _ H'. rewrite (Hnil eq_refl c' Hb (H' k (or_introl eq_refl))). exists []. reflexivity.
    + destruct c as [|c0 c]; [contradiction|].
      assert (Hcmp : comparable (c0 :: c) (i0 :: i)) by (rewrite <- Ei; apply Hc; left; reflexivity).
      destruct (startswith (c0 :: c) (i0 :: i)) eqn:Es; [|destruct (startswith (i0 :: i) (c0 :: c)) eqn:Es2].
      * apply startswith_prefix in Es.
        destruct (IH (c0 :: c) Hk2 Hne Hbc) as (M1 & M2 & M3); [intros x Hx; apply Hc; right; exact Hx|intros x y Hx Hy; apply Hp; right; assumption|].
        split; [exact M1|]. split.
        -- intros x [<-|Hx]; [|apply M2, Hx]. eapply prefix_trans; [exact M1|]. eapply prefix_trans; [exact Es|]. rewrite <- Ei. apply leading_prefix.
        -- intros c' Hb H1 H2. apply M3; [exact Hb|exact H1|]. intros x Hx. apply H2. right. exact Hx.
      * apply startswith_prefix in Es2.
        destruct (IH (i0 :: i) Hk2) as (M1 & M2 & M3).
        { discriminate. } { rewrite <- Ei. apply leading_blank. }
        { intros x Hx. rewrite <- Ei. apply Hp; [left; reflexivity|right; exact Hx]. }
        { intros x y Hx Hy; apply Hp; right; assumption. }
        split; [eapply prefix_trans; [exact M1|exact Es2]|]. split.
        -- intros x [<-|Hx]; [|apply M2, Hx]. eapply prefix_trans; [exact M1|]. rewrite <- Ei. apply leading_prefix.
        -- intros c' Hb H1 H2. apply M3; [exact Hb| |intros x Hx; apply H2; right; exact Hx].
           rewrite <- Ei. apply prefix_leading; [exact Hb|]. apply H2. left. reflexivity.
      * exfalso. destruct Hcmp as [H|H]; apply startswith_prefix in H; congruence.
Qed.
Lemma cutting_margin ks : Forall kline ks -> ks <> [] ->
  (forall k k', In k ks -> In k' ks -> comparable (leading k) (leading k')) ->
  let m := cut_text (cutting ks) in
  blank m /\ (forall k, In k ks -> prefix m k) /\ forall c', blank c' -> (forall k, In k ks -> prefix c' k) -> prefix c' m.
Proof.
  intros Hk Hne Hp. unfold cutting. destruct ks as [|k ks]; [contradiction|]. inversion Hk as [|? ? Hk1 Hk2]; subst.
  cbn [cutting_loop]. rewrite (kline_full k Hk1). destruct (leading k) as [|i0 i] eqn:Ei.
  - rewrite cutting_none. cbn [cut_text]. split; [constructor|]. split; [intros x _; exists x; reflexivity|].
    intros c' Hb H. specialize (H k (or_introl eq_refl)). apply prefix_leading in H; [|exact Hb]. rewrite Ei in H. exact H.
  - destruct (cutting_spec ks (i0 :: i) Hk2) as (M1 & M2 & M3).
    { discriminate. } { rewrite <- Ei. apply leading_blank. }
    { intros x Hx. rewrite <- Ei. apply Hp; [left; reflexivity|right; exact Hx]. }
    { intros x y Hx Hy; apply Hp; right; assumption. }
    split; [eapply prefix_blank; [exact M1|]; rewrite <- Ei; apply leading_blank|]. split.
    + intros x [<-|Hx]; [|apply M2, Hx]. eapply prefix_trans; [exact M1|]. rewrite <- Ei. apply leading_prefix.
    + intros c' Hb H. apply M3; [exact Hb| |intros x Hx; apply H; right; exact Hx].
      rewrite <- Ei. apply prefix_leading; [exact Hb|]. apply H. left. reflexivity.
Qed.

(** ** The same text *)
Lemma full_kept lines : full_lines lines -> Forall no_break lines -> Forall kline (kept lines) /\ kept lines <> [].
Proof.
  induction 1 as [l Hb|l Hb|l r Hb Hf IH]; intros Hn; inversion Hn as [|? ? H1 H2]; subst.
  - cbn [kept]. destruct l as [|c l]; [elim Hb; constructor|]. split; [|discriminate]. constructor; [|constructor]. exists (c :: l). auto.
  - cbn [kept]. split; [|discriminate]. constructor; [|constructor]. exists l. auto.
  - destruct (IH H2) as [I1 I2]. destruct r as [|l2 r]; [inversion Hf|]. change (kept (l :: l2 :: r)) with ((l ++ [10]) :: kept (l2 :: r)).
    split; [|discriminate]. constructor; [exists l; auto|exact I1].
Qed.
Lemma kept_in lines k : In k (kept lines) -> exists l, In l lines /\ (k = l \/ k = l ++ [10]).
Proof.
  induction lines as [|l r IH]; [intros []|]. destruct r as [|l2 r].
  - cbn [kept]. destruct l; [intros []|]. intros [<-|[]]. eexists. split; [left; reflexivity|auto].
  - change (kept (l :: l2 :: r)) with ((l ++ [10]) :: kept (l2 :: r)). intros [<-|H].
    + exists l. split; [left; reflexivity|auto].
    + destruct (IH H) as (l' & H1 & H2). exists l'. split; [right; exact H1|exact H2].
Qed.
Lemma in_kept lines l : In l lines -> ~ blank l -> In l (kept lines) \/ In (l ++ [10]) (kept lines).
Proof.
  induction lines as [|l0 r IH]; [intros []|]. intros H Hb. destruct r as [|l2 r].
  - destruct H as [->|[]]. cbn [kept]. destruct l; [elim Hb; constructor|]. left. left. reflexivity.
  - change (kept (l0 :: l2 :: r)) with ((l0 ++ [10]) :: kept (l2 :: r)). destruct H as [->|H]; [right; left; reflexivity|].
    destruct (IH H Hb); [left|right]; right; assumption.
Qed.
Lemma prefix_lf c l : blank c -> prefix c (l ++ [10]) -> prefix c l.
Proof.
  intros Hc H. apply prefix_leading in H; [|exact Hc]. rewrite leading_lf in H. eapply prefix_trans; [exact H|apply leading_prefix].
Qed.
Lemma prefix_app c l x : prefix c l -> prefix c (l ++ x).
Proof. intros [b ->]. exists (b ++ x). rewrite app_assoc. reflexivity. Qed.
Lemma cutting_is_margin lines c : full_lines lines -> Forall no_break lines ->
  (forall l l', In l lines -> In l' lines -> ~ blank l -> ~ blank l' -> comparable (leading l) (leading l')) ->
  margin c lines -> cut_text (cutting (kept lines)) = c.
Proof.
  intros Hf Hn Hp Hm. destruct (full_kept lines Hf Hn) as [Hk Hne].
  assert (Hlead : forall k, In k (kept lines) -> exists l, In l lines /\ ~ blank l /\ leading k = leading l).
  { intros k Hki. destruct (kept_in lines k Hki) as (l & Hl & E). rewrite Forall_forall in Hk.
    destruct (Hk k Hki) as (l' & E' & Hnb & Hb). exists l'.
    assert (In l' lines).
    { destruct E as [->| ->], E' as [E'|E'].
      - subst. exact Hl.
      - subst. rewrite Forall_forall in Hn. specialize (Hn _ Hl). apply Forall_app in Hn as [_ Hn]. inversion Hn; discriminate.
      - subst. apply Forall_app in Hnb as [_ Hnb]. inversion Hnb; discriminate.
      - apply app_inj_tail in E' as [-> _]. exact Hl. }
    split; [assumption|]. split; [exact Hb|]. destruct E' as [->| ->]; [reflexivity|apply leading_lf]. }
  destruct (cutting_margin (kept lines) Hk Hne) as (M1 & M2 & M3).
  { intros k k' H1 H2. destruct (Hlead k H1) as (l & L1 & L2 & ->). destruct (Hlead k' H2) as (l' & L1' & L2' & ->). auto. }
  apply (margin_unique _ c lines); [|exact Hm|].
  - split; [exact M1|]. split.
    + intros l Hl Hb. destruct (in_kept lines l Hl Hb) as [H|H]; [apply M2, H|apply prefix_lf; [exact M1|apply M2, H]].
    + intros c' Hb' H' _. apply M3; [exact Hb'|]. intros k Hki. destruct (kept_in lines k Hki) as (l & Hl & E).
      destruct (Hlead k Hki) as (l' & L1 & L2 & L3). eapply prefix_trans; [|apply leading_prefix]. rewrite L3.
      apply prefix_leading; [exact Hb'|]. apply H'; assumption.
  - destruct Hf; eexists; (split; [left; reflexivity|assumption]).
Qed.
Lemma cut_full c l y : cut c l y -> ~ blank l -> l = c ++ y.
Proof. intros [] Hb; [contradiction|reflexivity]. Qed.
Lemma cut_nil c l y : cut c l y -> l = [] -> y = [].
Proof. intros [l' _|l' _] E; [reflexivity|]. apply app_eq_nil in E. apply E. Qed.
Lemma trim_lines_laid lines c rest ind w : full_lines lines -> blank c -> Forall no_break lines -> Forall2 (cut c) lines rest ->
  laid ind rest w -> forall first, concat (trim_lines (length c) ind first (kept lines)) = (if first then [] else ind) ++ w.
Proof.
  intros Hf Hbc. revert rest w. induction Hf as [l Hb|l Hb|l r Hb Hf IH]; intros rest w Hn Hc Hl first; inversion Hn as [|? ? H1 H2]; subst.
  - inversion Hc as [|? y ? ? Hy Hr]; subst. inversion Hr; subst. apply cut_full in Hy; [|exact Hb].
    inversion Hl; subst; [|match goal with H : laid ind [] _ |- _ => inversion H end].
    destruct (c ++ w) as [|x k] eqn:E; [elim Hb; constructor|]. cbn [kept trim_lines]. rewrite (line_empty_no_lf _ H1). cbn [concat]. rewrite app_nil_r, <- E.
    rewrite skipn_length_app. reflexivity.
  - inversion Hc as [|? y ? ? Hy Hr]; subst. inversion Hr as [|? z ? ? Hz Hr']; subst. inversion Hr'; subst.
    apply cut_nil in Hz; [|reflexivity]. apply cut_full in Hy; [|exact Hb]. subst z l.
    cbn [kept trim_lines]. rewrite line_empty_lf by exact H1. apply is_blank_false in Hb. rewrite Hb. cbn [concat]. rewrite app_nil_r.
    rewrite <- app_assoc, skipn_length_app. inversion Hl; subst; [reflexivity|congruence].
  - inversion Hc as [|? y ? rest' Hy Hr]; subst. apply cut_full in Hy; [|exact Hb]. subst l.
    destruct r as [|l2 r]; [inversion Hf|]. change (kept ((c ++ y) :: l2 :: r)) with (((c ++ y) ++ [10]) :: kept (l2 :: r)).
    cbn [trim_lines concat]. rewrite line_empty_lf by exact H1. pose proof Hb as Hb'. apply is_blank_false in Hb'. rewrite Hb'.
    rewrite <- (app_assoc c), skipn_length_app.
    inversion Hl as [l0 E0 E1|l0 E0 E1|l0 r0 t Hr0 Ht E0 E1]; subst.
    + inversion Hr.
    + exfalso. inversion Hr as [|? ? ? ? Ha Hb0]; subst. inversion Hb0; subst.
      assert (Hl2 : ~ blank l2). { inversion Hf; subst; assumption. }
      apply cut_full in Ha; [|exact Hl2]. rewrite app_nil_r in Ha. subst. contradiction.
    + rewrite (IH rest' t H2 Hr Ht false). rewrite <- !app_assoc. reflexivity.
Qed.
Lemma leading_indented l : ~ blank l -> indented_by (leading l) l.
Proof.
  intros Hb. destruct (leading_spec l) as (b & H1 & H2 & H3). split; [exact H2|].
  destruct b as [|c b]; [elim Hb; rewrite H1, app_nil_r; exact H2|]. exists c, b. split; [exact H1|]. apply (H3 c b eq_refl).
Qed.
Lemma even_leading lines : even_indentation lines ->
  forall l l', In l lines -> In l' lines -> ~ blank l -> ~ blank l' -> comparable (leading l) (leading l').
Proof. intros H l l' H1 H2 B1 B2. apply (H l l'); try assumption; apply leading_indented; assumption. Qed.
Lemma trim_browse_follows ind lines b o w : full_lines lines -> Forall no_break lines ->
  even_indentation lines ->
  follows ind (join [10] lines) w -> r_txt (trim_with_browse true ind (Res (join [10] lines) b o)) = w.
Proof.
  intros Hf Hn Hev (lines' & c & rest & Hne & E & Hn' & Hm & Hc & Hl).
  pose proof (even_leading lines Hev) as Hp.
  assert (lines' = lines) as ->.
  { assert (lines <> []) by (destruct Hf; discriminate). rewrite <- (split_join lines'), <- E, split_join by assumption. reflexivity. }
  assert (Ht : concat (trim_lines (length (cut_text (cutting (kept lines)))) ind true (kept lines)) = w).
  { rewrite (cutting_is_margin lines c Hf Hn Hp Hm). rewrite (trim_lines_laid lines c rest ind w Hf (proj1 Hm) Hn Hc Hl true). reflexivity. }
  unfold trim_with_browse. cbn [r_txt].
  destruct (join [10] lines) as [|x t] eqn:Ej.
  - exfalso. destruct Hf as [l Hb|l Hb|l r Hb Hf]; cbn [join] in Ej.
    + subst. apply Hb. constructor.
    + destruct l; discriminate Ej.
    + destruct r; [inversion Hf|]. destruct l; discriminate Ej.
  - cbn [negb]. rewrite <- Ej, keep_join by exact Hn. cbn [r_txt]. rewrite <- Ht. unfold cut_text. destruct (cutting (kept lines)); reflexivity.
Qed.
