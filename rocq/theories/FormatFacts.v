(** Format strings and macros (proofs only). *)
From Coq Require Import List NArith ZArith Bool Lia ZifyBool ZifyNat ZifyN DecimalNat.
From Verif Require Import PyStr Ast Lex Parse Final Eval PyStrFacts EnvSpec EnvFacts EvalSpec EvalMono EvalKeep EvalPure EvalFacts EvalFacts2 EvalFacts3 EvalFacts4 ApplyFacts ApplyFacts2 FormatSpec.
Import ListNotations.
Open Scope list_scope.
Open Scope N_scope.

(** ** One replacement *)
Lemma replace_skip_app old new a : forall k s, (length a <= k)%nat -> replace_skip old new k (a ++ s) = replace_skip old new (k - length a) s.
Proof.
  induction a as [|x a IH]; intros k s Hk; [cbn [app length]; rewrite Nat.sub_0_r; reflexivity|].
  cbn [length] in Hk. destruct k as [|k]; [lia|]. cbn [app replace_skip length]. rewrite IH by lia. reflexivity.
Qed.
Lemma mark_shape n : mark n = 40 :: 36 :: n ++ [41].
Proof. reflexivity. Qed.
Lemma replace_mark k v s : replace (mark k) v (mark k ++ s) = v ++ replace (mark k) v s.
Proof.
  unfold replace. rewrite mark_shape. cbn [app]. cbn [replace_skip].
  replace (startswith (40 :: 36 :: k ++ [41]) (40 :: 36 :: (k ++ [41]) ++ s)) with true.
  - f_equal. cbn [pred length]. change (36 :: (k ++ [41]) ++ s) with ((36 :: k ++ [41]) ++ s).
    rewrite replace_skip_app by (cbn [length]; lia). cbn [length]. rewrite Nat.sub_diag. reflexivity.
  - symmetry. apply startswith_spec. exists s. reflexivity.
Qed.
Lemma replace_step old v c s : startswith old (c :: s) = false -> replace old v (c :: s) = c :: replace old v s.
Proof. intros H. unfold replace. cbn [replace_skip]. rewrite H. reflexivity. Qed.
(** no occurrence starts in [a] *)
Lemma replace_over old v a s : (forall x y, a = x ++ y -> y <> [] -> startswith old (y ++ s) = false) ->
  replace old v (a ++ s) = a ++ replace old v s.
Proof.
  induction a as [|c a IH]; intros H; [reflexivity|]. cbn [app]. rewrite replace_step.
  - f_equal. apply IH. intros x y E Hy. apply (H (c :: x) y); [rewrite E; reflexivity|exact Hy].
  - apply (H [] (c :: a)); [reflexivity|discriminate].
Qed.
Lemma starts_mark k s : startswith (mark k) s = true -> exists r, s = 40 :: 36 :: k ++ 41 :: r.
Proof. intros H. apply startswith_spec in H as [r ->]. exists r. rewrite mark_shape. cbn [app]. rewrite <- app_assoc. reflexivity. Qed.
Lemma split_name k n r s : ~ In 41 k -> ~ In 41 n -> k ++ 41 :: r = n ++ 41 :: s -> k = n.
Proof.
  revert n. induction k as [|x k IH]; intros [|y n] Hk Hn E; cbn [app] in E; [reflexivity| | |].
  - injection E as <- _. contradiction Hn. left. reflexivity.
  - injection E as -> _. contradiction Hk. left. reflexivity.
  - injection E as -> E. f_equal. apply IH; [intros H; apply Hk; right; exact H|intros H; apply Hn; right; exact H|exact E].
Qed.
(** what comes after a piece does not begin with a dollar *)
Definition no_dollar (s : text) : Prop := match s with c :: _ => c <> 36 | [] => True end.
Lemma written_no_dollar items : readable items -> no_dollar (written items).
Proof.
  induction 1 as [|x items Hx H IH]; [exact I|]. unfold written in *. cbn [map concat]. destruct x as [t|n]; cbn [fsource ok_item] in *.
  - destruct t as [|c t]; [exact IH|]. destruct Hx as [_ Hx]. intros ->. apply (Hx t). reflexivity.
  - discriminate.
Qed.
Lemma loose_over k v t s : loose t -> no_dollar s -> replace (mark k) v (t ++ s) = t ++ replace (mark k) v s.
Proof.
  intros [H1 H2] Hs. apply replace_over. intros x y -> Hy. destruct (startswith (mark k) (y ++ s)) eqn:E; [|reflexivity].
  apply starts_mark in E as [r E]. destruct y as [|c [|d y]]; [contradiction| |].
  - cbn [app] in E. injection E as -> ->. contradiction Hs. reflexivity.
  - cbn [app] in E. injection E as -> -> _. contradiction (H1 x y). reflexivity.
Qed.
Lemma mark_over k n v s : ~ In 41 k -> plain_name n -> n <> k -> replace (mark k) v (mark n ++ s) = mark n ++ replace (mark k) v s.
Proof.
  intros Hk [Hn1 Hn2] Hne. apply replace_over. intros x y E Hy. destruct (startswith (mark k) (y ++ s)) eqn:Es; [|reflexivity].
  apply starts_mark in Es as [r Es]. rewrite mark_shape in E. destruct x as [|a x].
  - cbn [app] in E. subst y. cbn [app] in Es. injection Es as Es. rewrite <- app_assoc in Es. contradiction Hne.
    exact (split_name _ _ _ _ Hn2 Hk Es).
  - cbn [app] in E. injection E as _ E. destruct y as [|c y]; [contradiction|]. cbn [app] in Es. injection Es as -> _.
    assert (Hin : In 40 (36 :: n ++ [41])) by (rewrite E; apply in_or_app; right; left; reflexivity).
    destruct Hin as [Hin|Hin]; [discriminate Hin|]. apply in_app_or in Hin as [Hin|[Hin|[]]]; [contradiction|discriminate Hin].
Qed.
Definition put (k v : text) (x : fitem) : fitem :=
  match x with FMark n => if teqb n k then FLit v else x | _ => x end.
Lemma replace_items k v items : ~ In 41 k -> readable items ->
  replace (mark k) v (written items) = written (map (put k v) items).
Proof.
  intros Hk. induction 1 as [|x items Hx H IH]; [reflexivity|]. unfold written in *. cbn [map concat]. destruct x as [t|n]; cbn [fsource put ok_item] in *.
  - rewrite loose_over, IH; [reflexivity|exact Hx|]. apply (written_no_dollar items H).
  - destruct (teqb_spec n k) as [->|Hne]; cbn [fsource].
    + rewrite replace_mark, IH. reflexivity.
    + rewrite mark_over, IH; [reflexivity|exact Hk|exact Hx|exact Hne].
Qed.
Lemma put_readable k v items : loose v -> readable items -> readable (map (put k v) items).
Proof.
  intros Hv H. apply Forall_map. eapply Forall_impl; [|exact H]. intros [t|n] Hx; [exact Hx|]. cbn [put].
  destruct (teqb n k); [exact Hv|exact Hx].
Qed.

(** ** All replacements *)
Fixpoint replace_all (tab : list (text * text)) (s : text) : text :=
  match tab with [] => s | (k, v) :: r => replace_all r (replace (mark k) v s) end.
Lemma subst_put k v tab items u : substituted ((k, v) :: tab) items u -> substituted tab (map (put k v) items) u.
Proof.
  induction 1 as [|t r u H IH|n w r u G H IH|n r u G H IH]; cbn [map put]; [constructor|constructor; exact IH| |].
  - apply dict_get_gives in G. cbn [dict_get] in G. destruct (teqb_spec n k) as [->|Hne].
    + injection G as ->. constructor. exact IH.
    + apply SU_mark; [apply dict_get_gives, G|exact IH].
  - destruct (teqb_spec n k) as [->|Hne]; [contradiction G; left; reflexivity|].
    apply SU_other; [|exact IH]. intros Hin. apply G. right. exact Hin.
Qed.
Lemma subst_nil items u : substituted [] items u -> u = written items.
Proof.
  induction 1 as [|t r u H IH|n w r u G H IH|n r u G H IH]; unfold written in *; cbn [map concat fsource]; [reflexivity|congruence| |congruence].
  destruct G as ([|b bs] & a & E & _); discriminate E.
Qed.
Lemma replace_all_spec tab : forall items u, readable items -> Forall (fun b => ~ In 41 (fst b) /\ loose (snd b)) tab ->
  substituted tab items u -> replace_all tab (written items) = u.
Proof.
  induction tab as [|[k v] tab IH]; intros items u Hi Ht Hs; cbn [replace_all].
  - symmetry. apply subst_nil, Hs.
  - inversion Ht as [|? ? [Hk Hv] Ht']; subst. cbn [fst snd] in *. rewrite replace_items by assumption.
    apply IH; [apply put_readable; assumption|exact Ht'|]. apply subst_put, Hs.
Qed.
Lemma skip_all old new n : forall a r, List.length a = n -> replace_skip old new n (a ++ r) = replace_skip old new 0 r.
Proof. induction n as [|n IH]; intros [|c a] r H; try discriminate H; [reflexivity|]. cbn [app replace_skip]. apply IH. injection H as H. exact H. Qed.
Lemma replaced_spec old new s u : old <> [] -> replaced old new s u -> replace old new s = u.
Proof.
  intros Ho H. unfold replace. induction H as [|r u _ IH|c r u N _ IH].
  - reflexivity.
  - destruct old as [|o old]; [congruence|]. cbn [app replace_skip].
    replace (startswith (o :: old) (o :: old ++ r)) with true by (symmetry; apply startswith_spec; exists r; reflexivity).
    cbn [List.length pred]. rewrite skip_all by reflexivity. rewrite IH. reflexivity.
  - cbn [replace_skip]. destruct (startswith old (c :: r)) eqn:E.
    + apply startswith_spec in E as [x E]. destruct (N x E).
    + rewrite IH. reflexivity.
Qed.
Lemma mark_some k : mark k <> [].
Proof. unfold mark. change (lit "($") with [40; 36]. discriminate. Qed.
Lemma turn_spec tab s u : replaced_in_turn tab s u -> replace_all tab s = u.
Proof.
  induction 1 as [s|k v tab s s1 u H _ IH]; [reflexivity|]. cbn [replace_all]. rewrite (replaced_spec (mark k) v s s1); [exact IH|apply mark_some|exact H].
Qed.
Lemma replaced_exists old new : old <> [] -> forall s, exists u, replaced old new s u.
Proof.
  intros Ho s. remember (List.length s) as n eqn:E. assert (Hn : (List.length s <= n)%nat) by lia. clear E. revert s Hn.
  induction n as [|n IH]; intros s Hn; [destruct s; [exists []; constructor|cbn in Hn; lia]|].
  destruct s as [|c r]; [exists []; constructor|]. destruct (startswith old (c :: r)) eqn:E.
  - apply startswith_spec in E as [x E]. destruct (IH x) as [u Hu].
    + apply (f_equal (@List.length _)) in E. rewrite app_length in E. destruct old; [congruence|]. cbn [List.length] in *. lia.
    + exists (new ++ u). rewrite E. constructor. exact Hu.
  - destruct (IH r) as [u Hu]; [cbn [List.length] in Hn; lia|]. exists (c :: u). constructor; [|exact Hu]. intros x K. rewrite (proj2 (startswith_spec _ _) (ex_intro _ x K)) in E. discriminate E.
Qed.
Lemma turn_exists tab : forall s, exists u, replaced_in_turn tab s u.
Proof.
  induction tab as [|[k v] tab IH]; intros s; [exists s; constructor|]. destruct (replaced_exists (mark k) v (mark_some k) s) as [s1 H1].
  destruct (IH s1) as [u Hu]. exists u. econstructor; eassumption.
Qed.
Lemma subst_exists tab items : exists u, substituted tab items u.
Proof.
  induction items as [|[t|n] items [u IH]]; [exists []; constructor|exists (t ++ u); constructor; exact IH|].
  destruct (dict_get n tab) as [v|] eqn:E.
  - exists (v ++ u). apply SU_mark; [apply dict_get_gives, E|exact IH].
  - exists (mark n ++ u). apply SU_other; [apply dict_get_none, E|exact IH].
Qed.

(** ** Numbers of arguments *)
Lemma uint_text_digits d : Forall (fun c => 48 <= c <= 57) (uint_text d).
Proof. induction d; cbn [uint_text]; [constructor|..]; (constructor; [lia|exact IHd]). Qed.
Lemma nat_text_plain i : ~ In 41 (nat_text i).
Proof. intros H. pose proof (uint_text_digits (Nat.to_uint i)) as Hd. rewrite Forall_forall in Hd. apply Hd in H. lia. Qed.

(** ** The texts of values *)
Section Format.
Variables (ec : ectx) (parse : text -> M (list node)).
Notation ev := (yueval ec parse).
Notation fin := (finishes ec parse).
Notation evs := (evals ec parse).
Lemma shows_plain v u : shows v u -> plain ec v = u /\ is_term v = true.
Proof.
  induction 1 as [|s|s|t|z| |x t l u Hx [IHx1 IHx2] Hl [IHl1 IHl2]]; cbn [plain py_str str_of is_term forallb map concat]; auto.
  cbn [plain] in IHl1. cbn [is_term] in IHl2. rewrite IHx1, IHx2, IHl1, IHl2. auto.
Qed.
Lemma format_args_all args us : Forall2 shows args us -> forall i s, format_args ec i args s = replace_all (numbered i us) s.
Proof.
  induction 1 as [|a u args us Ha H IH]; intros i s; [reflexivity|]. cbn [format_args numbered replace_all].
  rewrite (proj1 (shows_plain _ _ Ha)). apply IH.
Qed.
Lemma terms_all args us : Forall2 shows args us -> is_term (NList args) = true.
Proof.
  cbn [is_term]. induction 1 as [|a u args us Ha H IH]; [reflexivity|]. cbn [forallb]. rewrite (proj2 (shows_plain _ _ Ha)), IH. reflexivity.
Qed.
Lemma replace_all_app a b s : replace_all (a ++ b) s = replace_all b (replace_all a s).
Proof. revert s. induction a as [|[k v] a IH]; intros s; [reflexivity|]. cbn [app replace_all]. apply IH. Qed.
Lemma rises_named l : rises (fun n => eval_named (ev n) l).
Proof. intros i j H. apply eval_named_mono. intros x. apply rises_ev, H. Qed.
Lemma named_gives named e s nm e' s' : named_evals ec parse named e s nm e' s' ->
  exists l, gives_r (fun n => eval_named (ev n) named) e s (Ok (l, e', s')) /\ map (fun b => (s_txt (fst b), snd b)) l = nm.
Proof.
  induction 1 as [e s|a x r e s v e1 s1 w e2 s2 Hx Hr (l & IH1 & IH2)].
  - exists []. split; [apply gives_ret; reflexivity|reflexivity].
  - exists ((a, v) :: l). split; [|cbn [map fst snd]; congruence]. cbn [eval_named].
    apply (gives_bind (fun n => ev n x) (fun n a' => ebind (eval_named (ev n) r) (fun r' => eret ((a, a') :: r'))) e s v e1 s1).
    + apply rises_ev.
    + intros a'. apply (rises_bind (fun n => eval_named (ev n) r)); [apply rises_named|]. intros b. apply rises_const.
    + apply evals_fin, Hx.
    + apply (gives_bind (fun n => eval_named (ev n) r) (fun _ r' => eret ((a, v) :: r')) e1 s1 l e2 s2).
      * apply rises_named.
      * intros b. apply rises_const.
      * exact IH1.
      * apply gives_ret. reflexivity.
Qed.
Lemma format_named_all (l : list (source * node)) nu : Forall2 shows_named (map (fun b => (s_txt (fst b), snd b)) l) nu -> forall s,
  format_named ec l s = replace_all nu s /\ forallb (fun e => is_term (snd e)) l = true.
Proof.
  revert nu. induction l as [|[a v] l IH]; intros nu H s; inversion H as [|? [k u] ? nu' [H1 H2] H']; subst; [auto|].
  cbn [fst snd] in *. subst k. destruct (shows_plain _ _ H2) as [E1 E2]. cbn [format_named replace_all forallb snd]. rewrite E1, E2. apply IH, H'.
Qed.
Lemma numbered_names us : forall i, Forall (fun b => ~ In 41 (fst b)) (numbered i us).
Proof. induction us as [|u us IH]; intros i; cbn [numbered]; constructor; [apply nat_text_plain|apply IH]. Qed.
Lemma numbered_loose us : Forall loose us -> forall i, Forall (fun b => ~ In 41 (fst b) /\ loose (snd b)) (numbered i us).
Proof. induction 1 as [|u us Hu _ IH]; intros i; cbn [numbered]; constructor; [split; [apply nat_text_plain|exact Hu]|apply IH]. Qed.

Theorem format_in_turn fn args named file pos e s v body e1 s1 vs us e2 s2 nm nu e3 s3 out :
  evs fn e s v e1 s1 -> str_of v = Some body -> (forall a, v <> NAtom a) ->
  evs (NList args) e1 s1 (NList vs) e2 s2 -> Forall2 shows vs us ->
  named_evals ec parse named e2 s2 nm e3 s3 -> Forall2 shows_named nm nu ->
  vs <> [] \/ named <> [] ->
  replace_all (numbered 0 us ++ nu) body = out ->
  evs (NApply fn args named file pos) e s (NStr (raw out)) e3 s3.
Proof.
  intros Hf Hv Hna Ha Hus Hn Hnu Hne Hout. apply evals_fin. rewrite (apply_fin ec parse fn args named file pos e s _ e1 s1 _ e2 s2 _ Hf Ha).
  destruct (named_gives _ _ _ _ _ _ Hn) as (l & Hl & El). subst nm. destruct (format_named_all l nu Hnu (format_args ec 0 vs body)) as [E1 E2].
  assert (Hrun : gives_r (fun n => apply_str ec (ev n) v body vs named file pos) e2 s2 (Ok (NStr (raw out), e3, s3))).
  { assert (Hb : gives_r (fun n => ebind (eval_named (ev n) named) (fun named =>
       if forallb (fun e => is_term (snd e)) named && is_term (NList vs) then eret (NStr (raw (format_named ec named (format_args ec 0 vs body))))
       else eret (NApply v vs named file pos))) e2 s2 (Ok (NStr (raw out), e3, s3))).
    { apply (gives_bind (fun n => eval_named (ev n) named) (fun _ named =>
       if forallb (fun e => is_term (snd e)) named && is_term (NList vs) then eret (NStr (raw (format_named ec named (format_args ec 0 vs body))))
       else eret (NApply v vs named file pos)) e2 s2 l e3 s3).
      - apply rises_named.
      - intros b. apply rises_const.
      - exact Hl.
      - rewrite E1, E2, (terms_all _ _ Hus). cbn [andb]. apply gives_ret. do 4 f_equal. rewrite (format_args_all _ _ Hus).
        rewrite <- replace_all_app. symmetry. f_equal. exact Hout. }
    unfold apply_str. destruct named as [|a named]; [|exact Hb]. destruct vs as [|w vs]; [|exact Hb]. destruct Hne; contradiction. }
  unfold apply_rest. destruct v; cbn [as_closure str_of] in *; try discriminate Hv; try (injection Hv as Hv; rewrite <- Hv in Hrun; exact Hrun).
  contradiction (Hna s0). reflexivity.
Qed.
Theorem format_string fn args named file pos e s v items e1 s1 vs us e2 s2 nm nu e3 s3 out :
  evs fn e s v e1 s1 -> str_of v = Some (written items) -> (forall a, v <> NAtom a) -> readable items ->
  evs (NList args) e1 s1 (NList vs) e2 s2 -> Forall2 shows vs us -> Forall loose us ->
  named_evals ec parse named e2 s2 nm e3 s3 -> Forall2 shows_named nm nu ->
  Forall (fun b => ~ In 41 (fst b) /\ loose (snd b)) nu -> vs <> [] \/ named <> [] ->
  substituted (numbered 0 us ++ nu) items out ->
  evs (NApply fn args named file pos) e s (NStr (raw out)) e3 s3.
Proof.
  intros Hf Hv Hna Hi Ha Hus Hlu Hn Hnu Hlnu Hne Hout. eapply format_in_turn; try eassumption.
  apply replace_all_spec; [exact Hi| |exact Hout]. apply Forall_app. split; [apply numbered_loose, Hlu|exact Hlnu].
Qed.
End Format.
