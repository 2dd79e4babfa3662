(** Blank-line reduction and steady spaces (proofs only). *)
From Coq Require Import List NArith ZArith Bool Lia.
From Coq Require Import ZifyBool ZifyNat ZifyN.
From Verif Require Import PyStr Ast Lex Final PyStrFacts FinalSpec.
Import ListNotations.
Open Scope N_scope.

(** ** lines *)
Lemma splitlines_step l : no_break l -> forall r,
  splitlines (l ++ r) =
  match l with [] => splitlines r | _ => match r with
    | [] => [l]
    | c :: _ => if py_isbreak c then match splitlines r with x :: xs => l :: xs | [] => [l] end
                else splitlines (l ++ r) end end.
Proof.
  induction 1 as [|c l Hc H IH]; intros r; [reflexivity|].
  destruct r as [|d r].
  - cbn [app splitlines]. rewrite Hc, IH. destruct l; [reflexivity|]. reflexivity.
  - destruct (py_isbreak d) eqn:Ed; [|reflexivity].
    cbn [app splitlines]. rewrite Hc, IH. destruct l as [|e l].
    + cbn [splitlines]. rewrite Ed. destruct (d =? 13); [|reflexivity].
      destruct r as [|e r]; [reflexivity|]. destruct (e =? 10); reflexivity.
    + rewrite Ed. cbn [splitlines]. rewrite Ed. destruct (d =? 13); [|reflexivity].
      destruct r as [|f r]; [reflexivity|]. destruct (f =? 10); reflexivity.
Qed.
Lemma lines_splitlines t ls : lines_of t ls -> splitlines t = ls.
Proof.
  induction 1 as [|l Hne Hl|l r ls Hl H IH|l c r ls Hl Hc Hcr H IH].
  - reflexivity.
  - rewrite <- (app_nil_r l) at 1. rewrite splitlines_step by exact Hl. destruct l; [contradiction|reflexivity].
  - rewrite splitlines_step by exact Hl. cbn. rewrite IH. destruct l; reflexivity.
  - rewrite splitlines_step by exact Hl. rewrite Hc.
    assert (E : splitlines (c :: r) = [] :: ls).
    { cbn [splitlines]. rewrite Hc. destruct (c =? 13) eqn:Ec; [|rewrite IH; reflexivity].
      apply N.eqb_eq in Ec. specialize (Hcr Ec). destruct r as [|d r].
      - inversion H; subst; try reflexivity; try congruence.
        + destruct l0; discriminate.
        + destruct l0; discriminate.
      - destruct (d =? 10) eqn:Ed; [apply N.eqb_eq in Ed; subst d; exfalso; eapply Hcr; reflexivity|].
        rewrite IH. reflexivity. }
    rewrite E. destruct l; reflexivity.
Qed.
Lemma lines_exist t : lines_of t (splitlines t).
Proof.
  remember (length t) as n eqn:En. assert (Hn : (length t <= n)%nat) by lia. clear En.
  revert t Hn. induction n as [|n IH]; intros t Hn.
  { destruct t; [constructor|cbn in Hn; lia]. }
  destruct t as [|c t]; [constructor|]. cbn [length] in Hn. cbn [splitlines].
  destruct (py_isbreak c) eqn:Ec.
  - destruct (c =? 13) eqn:E13.
    + apply N.eqb_eq in E13; subst c. destruct t as [|d t].
      * apply (lo_one [] 13 [] []); [constructor|exact Ec|discriminate|constructor].
      * destruct (d =? 10) eqn:Ed.
        -- apply N.eqb_eq in Ed; subst d. apply (lo_crlf [] t); [constructor|]. apply IH. cbn in Hn; lia.
        -- apply (lo_one [] 13 (d :: t)); [constructor|exact Ec| |apply IH; cbn in Hn |- *; lia].
           intros _ r' [= -> _]. discriminate.
    + apply (lo_one [] c t); [constructor|exact Ec| |apply IH; lia]. intros ->. discriminate.
  - assert (H := IH t ltac:(lia)). inversion H as [Et|l Hne Hl|l r ls Hl Hr|l d r ls Hl Hd Hcr Hr]; subst.
    + apply (lo_last [c]); [discriminate|constructor; [exact Ec|constructor]].
    + apply (lo_last (c :: t)); [discriminate|constructor; assumption].
    + apply (lo_crlf (c :: l)); [constructor; assumption|exact Hr].
    + apply (lo_one (c :: l)); [constructor; assumption|exact Hd|exact Hcr|exact Hr].
Qed.
Lemma lines_no_break t ls : lines_of t ls -> Forall no_break ls.
Proof. induction 1; constructor; auto. Qed.

(** ** strip and blank lines *)
Lemma rstrip_trimmed l : trimmed_end l (rstrip l).
Proof.
  induction l as [|c l (w & El & Hw & Ha)]; [exists []; repeat split; [constructor|left; reflexivity]|].
  cbn [rstrip]. destruct (rstrip l) as [|d a] eqn:E.
  - cbn [app] in El. subst w. destruct (py_isspace c) eqn:Ec.
    + exists (c :: l). split; [reflexivity|]. split; [constructor; assumption|left; reflexivity].
    + exists l. split; [reflexivity|]. split; [exact Hw|]. right. exists [], c. split; [reflexivity|exact Ec].
  - exists w. split; [rewrite El at 1; reflexivity|]. split; [exact Hw|]. right.
    destruct Ha as [Ha|(b & e & Ha & He)]; [discriminate|].
    exists (c :: b), e. split; [rewrite Ha; reflexivity|exact He].
Qed.
Lemma lstrip_blank l : lstrip l = [] <-> blank_line l.
Proof.
  induction l as [|c l IH]; [split; [constructor|reflexivity]|]. cbn [lstrip].
  destruct (py_isspace c) eqn:E.
  - rewrite IH. split; [intros H; constructor; assumption|intros H; inversion H; assumption].
  - split; [discriminate|]. intros H. inversion H; congruence.
Qed.
Lemma rstrip_blank l : rstrip l = [] <-> blank_line l.
Proof.
  induction l as [|c l IH]; [split; [constructor|reflexivity]|]. cbn [rstrip].
  destruct (rstrip l) as [|d a] eqn:Er.
  - destruct (py_isspace c) eqn:E.
    + split; [|reflexivity]. intros _. constructor; [exact E|]. apply IH; reflexivity.
    + split; [discriminate|]. intros H. inversion H; congruence.
  - split; [discriminate|]. intros H. inversion H as [|? ? _ H']; subst. apply IH in H'. discriminate.
Qed.
Lemma ln_blank_spec l : ln_blank l = true <-> blank_line l.
Proof.
  unfold ln_blank, strip. destruct (rstrip (lstrip l)) eqn:E.
  - split; [|reflexivity]. intros _. apply rstrip_blank in E. apply lstrip_blank.
    destruct (lstrip l) as [|c r] eqn:El; [reflexivity|]. exfalso.
    inversion E as [|? ? Hc _]; subst. clear -El Hc. induction l as [|d l IH]; [discriminate|].
    cbn [lstrip] in El. destruct (py_isspace d) eqn:Ed; [auto|]. injection El as -> ->. congruence.
  - split; [discriminate|]. intros H. apply lstrip_blank in H. rewrite H in E. discriminate.
Qed.
Lemma filter_squeezed ls : forall b, squeezed b ls (map rstrip (filter_empty b ls)).
Proof.
  induction ls as [|l ls IH]; intros b; [constructor|]. cbn [filter_empty].
  destruct (ln_blank l) eqn:El; cbn [negb]; rewrite ?orb_true_r, ?orb_false_r.
  - apply ln_blank_spec in El. destruct b; cbn [negb].
    + apply sq_drop; [exact El|apply IH].
    + cbn [map]. rewrite (proj2 (rstrip_blank l) El). apply sq_blank; [exact El|apply IH].
  - cbn [map]. apply sq_keep; [|apply rstrip_trimmed|apply IH].
    rewrite <- ln_blank_spec. congruence.
Qed.
Lemma join_unlines ls : ls <> [] -> join [10] ls ++ [10] = unlines ls.
Proof.
  intros H. destruct ls as [|l ls]; [contradiction|]. clear H. revert l.
  induction ls as [|m ls IH]; intros l; [cbn; rewrite app_nil_r; reflexivity|].
  change (join [10] (l :: m :: ls)) with (l ++ [10] ++ join [10] (m :: ls)).
  change (unlines (l :: m :: ls)) with ((l ++ [10]) ++ unlines (m :: ls)).
  rewrite <- IH. rewrite <- !app_assoc. reflexivity.
Qed.
Lemma reduce_squeezed t ls :
  lines_of t ls -> exists out, squeezed false ls out /\
    reduce_emptiness true t = match out with [] => [10] | _ => unlines out end.
Proof.
  intros H. exists (map rstrip (filter_empty false ls)). split; [apply filter_squeezed|].
  unfold reduce_emptiness. cbn [negb]. rewrite (lines_splitlines _ _ H).
  destruct (map rstrip (filter_empty false ls)) as [|l o]; [reflexivity|].
  apply join_unlines. discriminate.
Qed.

(** ** consequences *)
Lemma trimmed_nonblank l a : trimmed_end l a -> ~ blank_line l -> a <> [].
Proof. intros (w & -> & Hw & _) H ->. apply H. exact Hw. Qed.
Lemma squeezed_tidy b ls out : squeezed b ls out -> Forall no_break ls -> Forall tidy out.
Proof.
  induction 1 as [b|b l a ls out Hn Ht H IH|l ls out Hb H IH|l ls out Hb H IH]; intros Hls.
  - constructor.
  - inversion Hls; subst. constructor; [|auto]. destruct Ht as (w & -> & Hw & Ha). split; [|exact Ha].
    match goal with H : no_break (_ ++ _) |- _ => apply Forall_app in H; apply H end.
  - inversion Hls; subst. constructor; [|auto]. split; [constructor|left; reflexivity].
  - inversion Hls; subst. auto.
Qed.
Lemma squeezed_head_true ls out : squeezed true ls out -> forall r, out <> [] :: r.
Proof.
  intros H. remember true as b eqn:Eb.
  induction H as [b|b l a ls out Hn Ht H IH|l ls out Hb H IH|l ls out Hb H IH]; try discriminate; intros r.
  - intros [= -> _]. eapply trimmed_nonblank; eauto.
  - exact (IH eq_refl r).
Qed.
Lemma squeezed_never_twice b ls out : squeezed b ls out -> never_twice (eq []) out.
Proof.
  induction 1 as [b|b l a ls out Hn Ht H IH|l ls out Hb H IH|l ls out Hb H IH]; [exact I| | |exact IH].
  - destruct out as [|o out]; [exact I|]. split; [|exact IH]. intros [Ha _].
    eapply trimmed_nonblank; eauto.
  - destruct out as [|o out]; [exact I|]. split; [|exact IH]. intros [_ Ho]. subst o.
    eapply squeezed_head_true; eauto.
Qed.
Lemma unlines_lines ls : Forall no_break ls -> lines_of (unlines ls) ls.
Proof.
  induction 1 as [|l ls Hl H IH]; [constructor|].
  change (unlines (l :: ls)) with ((l ++ [10]) ++ unlines ls). rewrite <- app_assoc.
  apply (lo_one l 10); [exact Hl|reflexivity|discriminate|exact IH].
Qed.
Lemma tidy_rstrip l : tidy l -> rstrip l = l.
Proof.
  intros [_ [->|(b & c & -> & Hc)]]; [reflexivity|]. induction b as [|d b IH].
  - cbn. rewrite Hc. reflexivity.
  - cbn [app rstrip]. rewrite IH. destruct b; reflexivity.
Qed.
Lemma tidy_blank l : tidy l -> ln_blank l = true -> l = [].
Proof. intros Ht H. apply ln_blank_spec, rstrip_blank in H. rewrite tidy_rstrip in H; assumption. Qed.
Lemma filter_tidy ls : Forall tidy ls -> never_twice (eq []) ls ->
  forall b, (b = true -> forall r, ls <> [] :: r) -> filter_empty b ls = ls.
Proof.
  induction 1 as [|l ls Hl H IH]; intros Hn b Hb; [reflexivity|]. cbn [filter_empty].
  destruct (ln_blank l) eqn:El.
  - assert (l = []) by (apply tidy_blank; assumption). subst l.
    destruct b; [exfalso; eapply Hb; reflexivity|]. cbn [negb orb]. f_equal. apply IH.
    + destruct ls; [exact I|]. apply Hn.
    + intros _ r ->. cbn in Hn. apply Hn. split; reflexivity.
  - rewrite orb_true_r. f_equal. apply IH; [destruct ls; [exact I|apply Hn]|discriminate].
Qed.
Lemma reduce_tidy ls : ls <> [] -> Forall tidy ls -> never_twice (eq []) ls ->
  reduce_emptiness true (unlines ls) = unlines ls.
Proof.
  intros Hne Ht Hn. unfold reduce_emptiness. cbn [negb].
  assert (Hnb : Forall no_break ls) by (eapply Forall_impl; [|exact Ht]; intros l Hl; apply Hl).
  rewrite (lines_splitlines _ _ (unlines_lines ls Hnb)).
  rewrite filter_tidy by (try assumption; discriminate).
  replace (map rstrip ls) with ls; [apply join_unlines, Hne|].
  clear -Ht. induction Ht as [|l ls Hl H IH]; [reflexivity|]. cbn [map]. rewrite tidy_rstrip by exact Hl. congruence.
Qed.
Lemma reduce_shape t :
  exists out, out <> [] /\ reduce_emptiness true t = unlines out /\ Forall tidy out /\ never_twice (eq []) out.
Proof.
  destruct (reduce_squeezed t _ (lines_exist t)) as (out & Hs & E).
  assert (Ht := squeezed_tidy _ _ _ Hs (lines_no_break _ _ (lines_exist t))).
  assert (Hn := squeezed_never_twice _ _ _ Hs).
  destruct out as [|o out].
  - exists [[]]. split; [discriminate|]. split; [exact E|]. split; [|exact I].
    constructor; [|constructor]. split; [constructor|left; reflexivity].
  - exists (o :: out). split; [discriminate|]. split; [exact E|]. split; assumption.
Qed.
Lemma reduce_idem t : reduce_emptiness true (reduce_emptiness true t) = reduce_emptiness true t.
Proof.
  destruct (reduce_shape t) as (out & Hne & -> & Ht & Hn). apply reduce_tidy; assumption.
Qed.

(** ** steady spaces *)
Lemma steady_map t :
  replace_steady t = map (fun c => if c =? 254 then 32 else if c =? 255 then 9 else c) t.
Proof.
  unfold replace_steady. rewrite !replace_char, map_map. apply map_ext. intros c.
  unfold steady_tab, steady_space, c_tab, c_space. destruct (c =? 255) eqn:E1; destruct (c =? 254) eqn:E2; try reflexivity; lia.
Qed.
Lemma steady_pointwise t i :
  length (replace_steady t) = length t /\
  (forall c, nth_error t i = Some c ->
     nth_error (replace_steady t) i = Some (if c =? 254 then 32 else if c =? 255 then 9 else c)).
Proof.
  rewrite steady_map. split; [apply map_length|]. intros c H. rewrite nth_error_map, H. reflexivity.
Qed.
Lemma lstrip_split l : exists a, l = a ++ lstrip l /\ blank_line a.
Proof.
  induction l as [|c l (a & E & Ha)]; [exists []; split; [reflexivity|constructor]|]. cbn [lstrip].
  destruct (py_isspace c) eqn:Ec.
  - exists (c :: a). split; [cbn [app]; rewrite <- E; reflexivity|constructor; assumption].
  - exists []. split; [reflexivity|constructor].
Qed.
Lemma rstrip_app_blank a b : blank_line b -> rstrip (a ++ b) = rstrip a.
Proof.
  intros Hb. induction a as [|c a IH]; [apply rstrip_blank, Hb|]. cbn [app rstrip]. rewrite IH. reflexivity.
Qed.
