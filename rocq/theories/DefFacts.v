(** Definitions (proofs only). *)
From Coq Require Import List NArith ZArith Bool String Lia Permutation.
From Verif Require Import PyStr Ast Lex Parse Final Eval PyStrFacts EnvSpec EnvFacts EvalSpec EvalMono EvalKeep EvalFacts EvalFacts2 EvalFacts3 EvalFacts4 DefSpec.
Import ListNotations.
Open Scope list_scope.

Lemma frame_set_first k v w f : ~ In k (names f) -> frame_set k v ((k, w) :: f) = f ++ [(k, v)].
Proof.
  intros H. rewrite <- (frame_set_fresh k v f H). unfold frame_set, frame_del. cbn [filter fst]. rewrite teqb_refl. reflexivity.
Qed.
Lemma fold_bound (l : list text) : forall f, NoDup (names f ++ l) -> fold_left (fun f v => frame_set v NBound f) l f = f ++ no_values l.
Proof.
  induction l as [|n l IH]; intros f H; [symmetry; apply app_nil_r|]. cbn [fold_left no_values map].
  assert (Hn : ~ In n (names f)). { apply NoDup_remove_2 in H. intros Hin. apply H. apply in_or_app. auto. }
  rewrite frame_set_fresh by exact Hn. rewrite IH.
  - rewrite <- app_assoc. reflexivity.
  - unfold names. rewrite map_app. cbn [map fst]. rewrite <- app_assoc. exact H.
Qed.
Lemma fold_map {A B C} (g : B -> A) (h : C -> A -> C) l : forall c, fold_left (fun c b => h c (g b)) l c = fold_left h (map g l) c.
Proof. induction l as [|b l IH]; intros c; [reflexivity|]. cbn [fold_left map]. apply IH. Qed.
Lemma NoDup_rotate {A} (n : A) l : NoDup (n :: l) -> NoDup (l ++ [n]).
Proof. apply Permutation_NoDup, Permutation_cons_append. Qed.
Lemma fold_same (l : list text) v : forall old f, names old = l -> NoDup (l ++ names f) ->
  fold_left (fun f n => frame_set n v f) l (old ++ f) = f ++ map (fun n => (n, v)) l.
Proof.
  induction l as [|n l IH]; intros [|[k w] old] f Ho H; try discriminate Ho; [symmetry; apply app_nil_r|].
  injection Ho as -> Ho. cbn [fold_left map app]. rewrite frame_set_first.
  - rewrite <- app_assoc. rewrite IH.
    + rewrite <- app_assoc. reflexivity.
    + exact Ho.
    + unfold names. rewrite map_app. cbn [map fst]. fold (names f). 
      rewrite app_assoc. apply NoDup_rotate. exact H.
  - inversion H as [|? ? Hn Hd]. unfold names. rewrite map_app. fold (names old) (names f). rewrite Ho. exact Hn.
Qed.

Lemma assign_list_spec (l : list source) : forall vals old f e s f' s', names old = map s_txt l -> NoDup (map s_txt l ++ names f) ->
  side_by_side (map s_txt l) vals s f' s' -> assign_list l vals (old ++ f) e s = Ok (f ++ f', e, s').
Proof.
  induction l as [|a l IH]; intros vals [|[k w] old] f e s f' s' Ho H Hs; try discriminate Ho.
  - inversion Hs; subst. cbn [assign_list app]. rewrite app_nil_r. reflexivity.
  - injection Ho as -> Ho. cbn [map] in *.
    assert (Hn : ~ In (s_txt a) (names (old ++ f))).
    { inversion H as [|? ? Hn Hd]. unfold names. rewrite map_app. fold (names old) (names f). rewrite Ho. exact Hn. }
    assert (Hd : forall v, NoDup (map s_txt l ++ names (f ++ [(s_txt a, v)]))).
    { intros v. unfold names. rewrite map_app. cbn [map fst]. rewrite app_assoc. apply NoDup_rotate. exact H. }
    inversion Hs; subst; cbn [assign_list app].
    + rewrite frame_set_first by exact Hn. rewrite <- app_assoc. rewrite (IH _ _ (f ++ [(s_txt a, v)]) e s f0 s'); [|exact Ho|apply Hd|assumption].
      rewrite <- app_assoc. reflexivity.
    + unfold ebind, ewarn, lift_m, modify. rewrite frame_set_first by exact Hn. rewrite <- app_assoc.
      rewrite (IH [] _ (f ++ [(s_txt a, NNone)]) e _ f0 s'); [|exact Ho|apply Hd|assumption].
      rewrite <- app_assoc. reflexivity.
Qed.

Section Facts.
Variables (ec : ectx) (parse : text -> M (list node)).
Notation ev := (yueval ec parse).
Notation fin := (finishes ec parse).
Notation evs := (evals ec parse).

Lemma binding_spec lv ast e s v f1 e1 s1 f s2 :
  NoDup (declared lv) -> evs ast (no_values (declared lv) :: e) s v (f1 :: e1) s1 -> assigned lv v s1 f s2 ->
  exists n, forall m, (n <= m)%nat -> eval_binding (ev m) lv ast e s = Ok (f, e1, s2).
Proof.
  intros Hn Hv Ha.
  assert (Hf1 : names f1 = declared lv).
  { destruct Hv as [n0 K]. apply (yueval_keeps ec parse n0 ast) in K. unfold scopes in K. cbn [map] in K. injection K as K _. rewrite K.
    unfold names, no_values. rewrite map_map. cbn [fst]. apply map_id. }
  destruct Hv as [n Hv]. exists n. intros m Hm.
  unfold eval_binding.
  assert (E0 : fold_left (fun f v => frame_set (s_txt v) NBound f) (match lv with LAtom a => [a] | LList l => l end) [] = no_values (declared lv)).
  { rewrite (fold_map s_txt (fun f n => frame_set n NBound f)). rewrite fold_bound; [destruct lv; reflexivity|]. destruct lv; exact Hn. }
  rewrite E0. unfold ebind, in_frame. rewrite (more_budget ec parse n m) by (try exact Hm; rewrite Hv; discriminate). rewrite Hv.
  inversion Ha; subst.
  - cbn [declared] in Hf1. destruct f1 as [|[k w] [|? ?]]; try discriminate Hf1. injection Hf1 as ->.
    rewrite frame_set_first by (intros []). reflexivity.
  - rewrite H. replace f1 with (f1 ++ []) by apply app_nil_r. rewrite (assign_list_spec l vals f1 [] e1 s1 f s2); [reflexivity|exact Hf1| |assumption].
    cbn [names map]. rewrite app_nil_r. exact Hn.
  - rewrite H. unfold eret. do 3 f_equal. rewrite (fold_map s_txt (fun f n => frame_set n v f)).
    replace f1 with (f1 ++ []) by apply app_nil_r. rewrite fold_same; [cbn [app]; rewrite map_map; reflexivity|exact Hf1|].
    cbn [names map]. rewrite app_nil_r. exact Hn.
Qed.
Lemma set_value lv ast e s v f1 e1 s1 f s2 :
  NoDup (declared lv) -> no_setting lv -> evs ast (no_values (declared lv) :: e) s v (f1 :: e1) s1 -> assigned lv v s1 f s2 ->
  evs (NSet lv ast) e s (NEnv f) e1 s2.
Proof.
  intros Hn Ho Hv Ha. destruct (binding_spec _ _ _ _ _ _ _ _ _ _ Hn Hv Ha) as [n H]. exists (S n).
  cbn [yueval eval_body]. unfold eval_set. specialize (H n (le_n n)).
  assert (K : ebind (eval_binding (ev n) lv ast) (fun f => eret (NEnv f)) e s = Ok (NEnv f, e1, s2)) by (unfold ebind; rewrite H; reflexivity).
  destruct lv as [a|l]; [|exact K]. destruct (teqb (s_txt a) output_var) eqn:Et; [|exact K].
  apply teqb_eq in Et. contradiction.
Qed.
Lemma let_value lv ast form e s v f1 e1 s1 f s2 w f2 e2 s3 :
  NoDup (declared lv) -> evs ast (no_values (declared lv) :: e) s v (f1 :: e1) s1 -> assigned lv v s1 f s2 ->
  evs form (f :: e1) s2 w (f2 :: e2) s3 -> evs (NLet lv ast form) e s w e2 s3.
Proof.
  intros Hn Hv Ha [k Hw]. destruct (binding_spec _ _ _ _ _ _ _ _ _ _ Hn Hv Ha) as [n H]. exists (S (n + k)).
  cbn [yueval eval_body]. unfold ebind. rewrite H by lia. unfold in_frame.
  rewrite (more_budget ec parse k (n + k)) by (try lia; rewrite Hw; discriminate). rewrite Hw. reflexivity.
Qed.
Lemma macro_value name pars body e s : NoDup (map s_txt pars) ->
  evs (NMacro name pars body) e s (NEnv [(s_txt name, NMClosure body (no_values (map s_txt pars)) (Some name) None)]) e s.
Proof.
  intros Hn. exists 1%nat. cbn [yueval eval_body]. unfold eret. do 8 f_equal.
  rewrite (fold_map s_txt (fun f n => frame_set n NBound f)). apply (fold_bound _ []). exact Hn.
Qed.
(** the rest of the text is evaluated with the new scope *)
Lemma scope_of_rest x y rest ind e s f e1 s1 t f' e2 s2 :
  e_browse ec = false -> x <> NComment -> evs x e s (NEnv f) e1 s1 ->
  evs (NT (trimmed_next ind (y :: rest)) ind) (f :: e1) s1 (NRaw t) (f' :: e2) s2 ->
  evs (NT (x :: y :: rest) ind) e s (NRaw t) e2 s2.
Proof.
  intros Hb Hx Hv [n Hr]. apply text_spec; [exact Hb|]. exists [NRaw t]. split.
  - eapply BL_scope; [exact Hx|exact Hv|]. exists (S n). cbn [yueval eval_body].
    unfold ebind, in_frame. match goal with |- context [yueval ec parse n ?a ?b ?c] => replace (yueval ec parse n a b c) with (Ok (NRaw t, f' :: e2, s2)) by (symmetry; exact Hr) end. reflexivity.
  - cbn [is_term forallb andb plain map List.concat]. rewrite app_nil_r. reflexivity.
Qed.
Lemma scope_of_rest_only x y rest ind e s f e1 s1 t e2 s2 :
  e_browse ec = false -> x <> NComment -> evs x e s (NEnv f) e1 s1 ->
  evs (NT (x :: y :: rest) ind) e s (NRaw t) e2 s2 ->
  exists f', evs (NT (trimmed_next ind (y :: rest)) ind) (f :: e1) s1 (NRaw t) (f' :: e2) s2.
Proof.
  intros Hb Hx Hv H. apply text_spec in H; [|exact Hb]. destruct H as (w & H & Ht).
  assert (K : exists v, w = [v] /\ evs (NSetClosure (NT (trimmed_next ind (y :: rest)) ind) f) e1 s1 v e2 s2).
  { inversion H; subst; try congruence;
      match goal with H1 : evals _ _ x e s ?a _ _, H2 : evals _ _ x e s ?b _ _ |- _ =>
        destruct (evals_det _ _ _ _ _ _ _ _ _ _ _ H1 H2) as (E1 & -> & ->); try discriminate E1 end.
    all: try (match goal with H : _ \/ _ |- _ => destruct H as [H|[H|H]]; congruence end).
    all: try (match goal with H : piece _ _ |- _ => inversion H; subst; try discriminate; try contradiction end).
    all: try congruence.
    injection E1 as ->. eexists. split; [reflexivity|assumption]. }
  destruct K as (v & -> & [n K]). destruct n as [|n]; [discriminate K|]. cbn [yueval eval_body] in K. unfold ebind, in_frame in K.
  match type of K with context [yueval ec parse n ?a ?b ?c] => destruct (yueval ec parse n a b c) as [[[u [|f' e']] s']| |] eqn:E; try discriminate K end.
  destruct (is_term u) eqn:Eu.
  2: { unfold eret in K. inversion K; subst.
    cbn [is_term forallb andb] in Ht. discriminate Ht. }
  unfold eret in K. injection K as <- <- <-. cbn [is_term forallb] in Ht. rewrite Eu in Ht. cbn [andb] in Ht. exists f'. exists n. refine (eq_trans E _).
  assert (Hu : exists t', u = NRaw t').
  { assert (Q : evs (NT (trimmed_next ind (y :: rest)) ind) (f :: e1) s1 u (f' :: e') s') by (exists n; exact E).
    apply text_spec in Q; [|exact Hb]. destruct Q as (w & _ & Q). destruct (is_term (NT w ind)) eqn:Ew; [eauto|].
    rewrite Q in Eu. congruence. }
  destruct Hu as [t' ->]. cbn [plain map List.concat] in Ht. rewrite app_nil_r in Ht. injection Ht as ->. reflexivity.
Qed.
Lemma reference_value r a f e s v : gives f (s_txt a) v -> v <> NBound -> evs (NVar r a) (f :: e) s v (f :: e) s.
Proof.
  intros Hg Hv. exists 1%nat. cbn [yueval eval_body]. unfold eval_var, ebind, get_env. cbn [lookup].
  apply dict_get_gives in Hg. rewrite Hg. destruct v; try reflexivity. contradiction.
Qed.
Lemma embedded_rest x rest ind l i e s e1 s1 t e2 s2 :
  e_browse ec = false -> x <> NComment -> evs x e s (NEmbed (NT l i)) e1 s1 ->
  evs (NT (indented ind l ++ rest) ind) e1 s1 (NRaw t) e2 s2 ->
  evs (NT (x :: rest) ind) e s (NRaw t) e2 s2.
Proof.
  intros Hb Hx Hv H. apply text_spec; [exact Hb|]. exists [NRaw t]. split.
  - eapply BL_embed with (v := NRaw t); eassumption.
  - cbn [is_term forallb andb plain map List.concat]. rewrite app_nil_r. reflexivity.
Qed.
End Facts.
