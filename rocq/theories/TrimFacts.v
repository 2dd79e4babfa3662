(** Indentation of substituted text (proofs only). *)
From Coq Require Import List NArith ZArith Bool Lia ZifyBool ZifyNat ZifyN.
From Verif Require Import PyStr Ast Lex Parse Final PyStrFacts FinalSpec FinalFacts TrimSpec.
Import ListNotations.
Open Scope N_scope.

Lemma is_blank_spec l : is_blank l = true <-> blank l.
Proof.
  unfold is_blank, blank. rewrite forallb_forall, Forall_forall. split; intros H c Hc; specialize (H c Hc); unfold ps_SPACE in *; lia.
Qed.
Lemma is_blank_false l : is_blank l = false <-> ~ blank l.
Proof. rewrite <- is_blank_spec. destruct (is_blank l); split; congruence. Qed.
Lemma blank_dec l : {blank l} + {~ blank l}.
Proof. destruct (is_blank l) eqn:E; [left; apply is_blank_spec, E|right; apply is_blank_false, E]. Qed.
Lemma split_lf_line l r : no_break l -> split_lf (l ++ 10 :: r) = l :: split_lf r.
Proof.
  induction 1 as [|c l Hc _ IH]; [reflexivity|]. cbn [app split_lf].
  destruct (c =? 10) eqn:E; [apply N.eqb_eq in E; subst; discriminate Hc|]. rewrite IH. reflexivity.
Qed.
Lemma split_lf_end l : no_break l -> split_lf l = [l].
Proof.
  induction 1 as [|c l Hc _ IH]; [reflexivity|]. cbn [split_lf].
  destruct (c =? 10) eqn:E; [apply N.eqb_eq in E; subst; discriminate Hc|]. rewrite IH. reflexivity.
Qed.
Lemma split_join lines : lines <> [] -> Forall no_break lines -> split_lf (join [10] lines) = lines.
Proof.
  intros H Hn. induction Hn as [|l r Hl Hr IH]; [contradiction|].
  destruct r as [|l2 r]; [apply split_lf_end, Hl|]. change (join [10] (l :: l2 :: r)) with (l ++ 10 :: join [10] (l2 :: r)).
  rewrite split_lf_line by exact Hl. rewrite IH by discriminate. reflexivity.
Qed.
Lemma leading_spec l : exists b, l = leading l ++ b /\ blank (leading l) /\ (forall c r, b = c :: r -> c <> 32 /\ c <> 9).
Proof.
  unfold leading. induction l as [|c l IH]; [exists []; split; [reflexivity|split; [constructor|discriminate]]|].
  cbn [span_len]. destruct (ps_SPACE c) eqn:E.
  - destruct IH as (b & H1 & H2 & H3). exists b. cbn [firstn app]. split; [congruence|split; [|exact H3]].
    constructor; [unfold ps_SPACE in E; lia|exact H2].
  - exists (c :: l). cbn [firstn app]. split; [reflexivity|split; [constructor|]]. intros d r [= <- _]. unfold ps_SPACE in E; lia.
Qed.
Lemma prefix_leading c l : blank c -> prefix c l -> prefix c (leading l).
Proof.
  intros Hc [b ->]. induction Hc as [|x c Hx _ IH]; [exists (leading b); reflexivity|].
  destruct IH as [d Hd]. exists d. unfold leading in *. cbn [app span_len].
  replace (ps_SPACE x) with true by (symmetry; unfold ps_SPACE; lia). cbn [firstn app]. f_equal. exact Hd.
Qed.
Lemma common_l a b : prefix (common_prefix a b) a.
Proof.
  revert b. induction a as [|x a IH]; intros [|y b]; cbn [common_prefix]; try (eexists; reflexivity).
  destruct (x =? y) eqn:E; [|eexists; reflexivity]. destruct (IH b) as [d Hd]. exists d. cbn [app]. congruence.
Qed.
Lemma common_r a b : prefix (common_prefix a b) b.
Proof.
  revert b. induction a as [|x a IH]; intros [|y b]; cbn [common_prefix]; try (eexists; reflexivity).
  destruct (x =? y) eqn:E; [|eexists; reflexivity]. apply N.eqb_eq in E. destruct (IH b) as [d Hd]. exists d. cbn [app]. congruence.
Qed.
Lemma common_glb c a b : prefix c a -> prefix c b -> prefix c (common_prefix a b).
Proof.
  intros [a' ->] [b' ->]. induction c as [|x c IH]; [eexists; reflexivity|]. cbn [app common_prefix]. rewrite N.eqb_refl.
  destruct IH as [d Hd]. exists d. cbn [app]. congruence.
Qed.
Lemma prefix_trans a b c : prefix a b -> prefix b c -> prefix a c.
Proof. intros [x ->] [y ->]. exists (x ++ y). rewrite app_assoc. reflexivity. Qed.
Lemma prefix_blank a b : prefix a b -> blank b -> blank a.
Proof. intros [x ->] H. apply Forall_app in H. apply H. Qed.
Lemma prefix_antisym a b : prefix a b -> prefix b a -> a = b.
Proof.
  intros [x ->] [y H]. rewrite <- app_assoc in H. rewrite <- (app_nil_r a) in H at 1. apply app_inv_head in H.
  destruct x; [rewrite app_nil_r; reflexivity|discriminate].
Qed.
Lemma margin_none lines : margin_of lines = None -> Forall blank lines.
Proof.
  induction lines as [|l r IH]; cbn [margin_of]; [constructor|]. destruct (is_blank l) eqn:E.
  - intros H. constructor; [apply is_blank_spec, E|auto].
  - destruct (margin_of r); discriminate.
Qed.
Lemma margin_some lines m : margin_of lines = Some m -> margin m lines /\ exists l, In l lines /\ ~ blank l.
Proof.
  revert m. induction lines as [|l r IH]; cbn [margin_of]; [discriminate|]. intros m. destruct (is_blank l) eqn:E.
  - intros H. apply is_blank_spec in E. destruct (IH m H) as [(H1 & H2 & H3) (l' & H4 & H5)]. split.
    + split; [exact H1|split].
      * intros x [<-|Hx] Hn; [contradiction|auto].
      * intros c' Hc' H' _. apply H3; [exact Hc'| |eauto]. intros x Hx Hn. apply H'; [right; exact Hx|exact Hn].
    + exists l'. split; [right; exact H4|exact H5].
  - apply is_blank_false in E. destruct (leading_spec l) as (b & H1 & H2 & H3).
    destruct (margin_of r) as [m'|] eqn:Er; intros [= <-].
    + destruct (IH m' eq_refl) as [(K1 & K2 & K3) K4]. split; [|exists l; split; [left; reflexivity|exact E]].
      split; [eapply prefix_blank; [apply common_l|exact H2]|split].
      * intros x [<-|Hx] Hn; [eapply prefix_trans; [apply common_l|exists b; exact H1]|].
        eapply prefix_trans; [apply common_r|auto].
      * intros c' Hc' H' _. apply common_glb.
        -- apply prefix_leading; [exact Hc'|]. apply H'; [left; reflexivity|exact E].
        -- apply K3; [exact Hc'| |exact K4]. intros x Hx Hn. apply H'; [right; exact Hx|exact Hn].
    + apply margin_none in Er. split; [|exists l; split; [left; reflexivity|exact E]].
      split; [exact H2|split].
      * intros x [<-|Hx] Hn; [exists b; exact H1|]. rewrite Forall_forall in Er. elim Hn. apply Er, Hx.
      * intros c' Hc' H' _. apply prefix_leading; [exact Hc'|]. apply H'; [left; reflexivity|exact E].
Qed.
Definition blanked (ln : text) : text := if is_blank ln then [] else ln.
Lemma blanked_in lines l : ~ blank l -> In l (map blanked lines) <-> In l lines.
Proof.
  intros Hn. rewrite in_map_iff. unfold blanked. split.
  - intros (x & Hx & Hi). destruct (is_blank x); [subst; elim Hn; constructor|congruence].
  - intros Hi. exists l. apply is_blank_false in Hn. rewrite Hn. auto.
Qed.
Lemma margin_blanked c lines : margin c (map blanked lines) <-> margin c lines.
Proof.
  unfold margin.
  assert (H1 : forall c, (forall l, In l (map blanked lines) -> ~ blank l -> prefix c l) <-> (forall l, In l lines -> ~ blank l -> prefix c l)).
  { intros x. split; intros H l Hi Hn; apply H; try exact Hn; apply (blanked_in lines l Hn), Hi. }
  assert (H2 : (exists l, In l (map blanked lines) /\ ~ blank l) <-> (exists l, In l lines /\ ~ blank l)).
  { split; intros (l & Hi & Hn); exists l; split; try exact Hn; apply (blanked_in lines l Hn), Hi. }
  split; intros (A & B & C); (split; [exact A|split; [apply H1, B|]]); intros c' K1 K2 K3; apply C; try assumption;
    try (apply H1, K2); apply H2, K3.
Qed.
Lemma margin_unique a b lines : margin a lines -> margin b lines -> (exists l, In l lines /\ ~ blank l) -> a = b.
Proof. intros (A1 & A2 & A3) (B1 & B2 & B3) He. apply prefix_antisym; auto. Qed.
Lemma startswith_prefix p s : startswith p s = true <-> prefix p s.
Proof.
  revert s. induction p as [|x p IH]; intros s; cbn [startswith]; [split; [exists s; reflexivity|reflexivity]|].
  destruct s as [|y s]; [split; [discriminate|intros [b Hb]; discriminate Hb]|].
  rewrite andb_true_iff, IH, N.eqb_eq. split.
  - intros (-> & b & ->). exists b. reflexivity.
  - intros [b [= -> ->]]. split; [reflexivity|]. exists b. reflexivity.
Qed.
Lemma skipn_length_app {A} (a b : list A) : skipn (length a) (a ++ b) = b.
Proof. induction a; [reflexivity|exact IHa]. Qed.
Definition uncut (m ln : text) : text := if startswith m ln then skipn (length m) ln else ln.
Lemma cut_all c lines rest : Forall2 (cut c) lines rest -> map (uncut c) (map blanked lines) = rest.
Proof.
  induction 1 as [|l r lines rest Hc _ IH]; [reflexivity|]. cbn [map]. rewrite IH. f_equal.
  destruct Hc as [l Hb|l Hb]; unfold blanked, uncut.
  - apply is_blank_spec in Hb. rewrite Hb. destruct (startswith c []) eqn:E; [|reflexivity].
    apply startswith_prefix in E. destruct E as [b E]. destruct c; [reflexivity|discriminate].
  - apply is_blank_false in Hb. rewrite Hb. replace (startswith c (c ++ l)) with true by (symmetry; apply startswith_prefix; exists l; reflexivity).
    apply skipn_length_app.
Qed.
Lemma cut_blanks c lines rest : Forall2 (cut c) lines rest -> Forall blank lines -> map blanked lines = rest.
Proof.
  induction 1 as [|l r lines rest Hc _ IH]; intros Hb; [reflexivity|]. inversion Hb; subst. cbn [map]. rewrite IH by assumption. f_equal.
  destruct Hc as [l H|l H]; [|contradiction]. unfold blanked. apply is_blank_spec in H. rewrite H. reflexivity.
Qed.
Lemma dedent_cut lines c rest : lines <> [] -> Forall no_break lines -> margin c lines -> Forall2 (cut c) lines rest ->
  dedent (join [10] lines) = join [10] rest.
Proof.
  intros Hne Hnb Hm Hc. unfold dedent. rewrite split_join by assumption. fold blanked. change (fun ln => if is_blank ln then [] else ln) with blanked.
  destruct (margin_of (map blanked lines)) as [m|] eqn:E.
  - apply margin_some in E as [E1 E2]. pose proof (margin_unique m c (map blanked lines) E1 (proj2 (margin_blanked c lines) Hm) E2) as ->.
    change (fun ln => if startswith c ln then skipn (length c) ln else ln) with (uncut c). rewrite (cut_all c lines rest Hc). reflexivity.
  - apply margin_none in E. rewrite (cut_blanks c lines rest Hc); [reflexivity|].
    rewrite Forall_forall in *. intros l Hl. destruct (blank_dec l) as [|Hn]; [assumption|].
    apply E, (blanked_in lines l Hn), Hl.
Qed.
Lemma keep_line l r : no_break l -> splitlines_keep (l ++ 10 :: r) = (l ++ [10]) :: splitlines_keep r.
Proof.
  induction 1 as [|c l Hc _ IH]; [reflexivity|]. cbn [app splitlines_keep]. rewrite Hc, IH. reflexivity.
Qed.
Lemma keep_end l : no_break l -> l <> [] -> splitlines_keep l = [l].
Proof.
  induction 1 as [|c l Hc Hl IH]; [contradiction|]. intros _. cbn [splitlines_keep]. rewrite Hc.
  destruct l; [reflexivity|]. rewrite IH by discriminate. reflexivity.
Qed.
Lemma keep_nonempty t : t <> [] -> splitlines_keep t <> [].
Proof.
  destruct t as [|c t]; [contradiction|]. intros _. cbn [splitlines_keep]. destruct (py_isbreak c).
  - destruct (c =? 13); [|discriminate]. destruct t as [|d t]; [discriminate|]. destruct (d =? 10); discriminate.
  - destruct (splitlines_keep t); discriminate.
Qed.
Lemma laid_join ind rest w : laid ind rest w -> Forall no_break rest -> join ind (splitlines_keep (join [10] rest)) = w.
Proof.
  induction 1 as [l|l|l r t Hr Hl IH]; intros Hn; inversion Hn as [|? ? H1 H2]; subst.
  - cbn [join]. destruct l as [|c l]; [reflexivity|]. rewrite keep_end by (assumption || discriminate). reflexivity.
  - change (join [10] [l; []]) with (l ++ 10 :: []). rewrite keep_line by exact H1. reflexivity.
  - destruct r as [|l2 r]; [inversion Hl|]. change (join [10] (l :: l2 :: r)) with (l ++ 10 :: join [10] (l2 :: r)).
    rewrite keep_line by exact H1. specialize (IH H2).
    destruct (splitlines_keep (join [10] (l2 :: r))) as [|k ks] eqn:E.
    + exfalso. revert E. apply keep_nonempty. destruct l2; destruct r as [|l3 r]; cbn [join app]; try discriminate. congruence.
    + change (join ind ((l ++ [10]) :: k :: ks)) with ((l ++ [10]) ++ ind ++ join ind (k :: ks)). rewrite IH, <- app_assoc. reflexivity.
Qed.
Lemma cut_no_break c lines rest : Forall2 (cut c) lines rest -> Forall no_break lines -> Forall no_break rest.
Proof.
  induction 1 as [|l r lines rest Hc _ IH]; intros Hn; [constructor|]. inversion Hn as [|? ? H1 H2]; subst.
  constructor; [|auto]. destruct Hc; [constructor|]. apply Forall_app in H1. apply H1.
Qed.
Lemma trim_follows ind u w : follows ind u w -> trim true ind u = w.
Proof.
  intros (lines & c & rest & Hne & -> & Hnb & Hm & Hc & Hl).
  assert (Hn : Forall no_break rest) by (eapply cut_no_break; eassumption).
  assert (H : join ind (splitlines_keep (dedent (join [10] lines))) = w).
  { rewrite (dedent_cut lines c rest) by assumption. apply laid_join; assumption. }
  unfold trim. destruct (join [10] lines) eqn:E; [|exact H]. symmetry. rewrite <- H. reflexivity.
Qed.
Lemma laid_exists ind rest : rest <> [] -> exists w, laid ind rest w.
Proof.
  induction rest as [|l r IH]; [contradiction|]. intros _. destruct r as [|l2 r]; [exists l; constructor|].
  destruct IH as [w Hw]; [discriminate|]. destruct l2 as [|x l2]; [destruct r as [|l3 r]|].
  - exists (l ++ [10]). constructor.
  - eexists. apply laid_more; [discriminate|exact Hw].
  - eexists. apply laid_more; [discriminate|exact Hw].
Qed.
Lemma margin_exists lines : exists c, margin c lines.
Proof.
  destruct (margin_of lines) as [m|] eqn:E; [exists m; apply margin_some, E|].
  apply margin_none in E. rewrite Forall_forall in E. exists []. split; [constructor|split].
  - intros l Hl Hn. elim Hn. auto.
  - intros c' _ _ (l & Hl & Hn). elim Hn. auto.
Qed.
Lemma cut_exists c lines : (forall l, In l lines -> ~ blank l -> prefix c l) -> exists rest, Forall2 (cut c) lines rest.
Proof.
  induction lines as [|l lines IH]; intros H; [exists []; constructor|]. destruct IH as [rest Hr]; [intros x Hx; apply H; right; exact Hx|].
  destruct (blank_dec l) as [Hb|Hb]; [exists ([] :: rest); constructor; [constructor; exact Hb|exact Hr]|].
  destruct (H l (or_introl eq_refl) Hb) as [b ->]. exists (b :: rest). constructor; [constructor; exact Hb|exact Hr].
Qed.
Lemma follows_exists ind lines : lines <> [] -> Forall no_break lines -> exists w, follows ind (join [10] lines) w.
Proof.
  intros Hne Hnb. destruct (margin_exists lines) as [c Hc]. destruct (cut_exists c lines) as [rest Hr]; [apply Hc|].
  destruct (laid_exists ind rest) as [w Hw]; [intros ->; inversion Hr; congruence|].
  exists w, lines, c, rest. auto 10.
Qed.
