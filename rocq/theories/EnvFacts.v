(** Environments (proofs only). *)
From Coq Require Import List NArith ZArith Bool Lia.
From Verif Require Import PyStr Ast Lex Parse Final Eval PyStrFacts EnvSpec.
Import ListNotations.
Open Scope N_scope.

Lemma dict_get_gives {A} (f : list (text * A)) k v : dict_get k f = Some v <-> gives f k v.
Proof.
  split.
  - induction f as [|[k' v'] f IH]; [discriminate|]. cbn [dict_get].
    destruct (teqb k k') eqn:E.
    + apply teqb_eq in E; subst. intros [= ->]. exists [], f. split; [reflexivity|intros []].
    + intros H. destruct (IH H) as (a & b & -> & Hn). exists ((k', v') :: a), b. split; [reflexivity|].
      intros [Hk|Hk]; [|exact (Hn Hk)]. cbn in Hk. subst. rewrite teqb_refl in E. discriminate.
  - intros (a & b & -> & Hn). induction a as [|[k' v'] a IH]; cbn [app dict_get].
    + rewrite teqb_refl. reflexivity.
    + destruct (teqb k k') eqn:E.
      * apply teqb_eq in E; subst. exfalso. apply Hn. left; reflexivity.
      * apply IH. intros H; apply Hn; right; exact H.
Qed.
Lemma dict_get_none {A} (f : list (text * A)) k : dict_get k f = None <-> ~ In k (names f).
Proof.
  induction f as [|[k' v'] f IH]; cbn [dict_get names map fst In]; [tauto|].
  destruct (teqb k k') eqn:E.
  - apply teqb_eq in E; subst. split; [discriminate|]. intros H; contradiction H; left; reflexivity.
  - rewrite IH. unfold names. split; [|tauto]. intros H [Hk|Hk]; [|exact (H Hk)].
    subst. rewrite teqb_refl in E. discriminate.
Qed.
Lemma dict_mem_names {A} (f : list (text * A)) k : dict_mem k f = true <-> In k (names f).
Proof.
  unfold dict_mem. destruct (dict_get k f) as [o|] eqn:E.
  - split; [|reflexivity]. intros _. apply dict_get_gives in E as (a & b & -> & _).
    unfold names. rewrite map_app. apply in_or_app; right; left; reflexivity.
  - apply dict_get_none in E. split; [discriminate|contradiction].
Qed.
Lemma dict_set_same {A} (f : list (text * A)) k v : In k (names f) -> same_but k v f (dict_set k v f).
Proof.
  induction f as [|[k' v'] f IH]; [intros []|]. cbn [dict_set names map fst In]. intros H.
  destruct (teqb k k') eqn:E.
  - apply teqb_eq in E; subst. exists [], v', f. repeat split; intros [].
  - destruct H as [H|H]; [subst; rewrite teqb_refl in E; discriminate|].
    destruct (IH H) as (a & o & b & -> & Hn & ->). exists ((k', v') :: a), o, b.
    repeat split. intros [Hk|Hk]; [|exact (Hn Hk)]. cbn in Hk. subst. rewrite teqb_refl in E; discriminate.
Qed.
Lemma same_but_gives {A} k (v : A) f f' : same_but k v f f' ->
  gives f' k v /\ (forall k' v', k' <> k -> gives f' k' v' <-> gives f k' v') /\ names f' = names f.
Proof.
  intros (a & o & b & -> & Hn & ->). split; [exists a, b; split; [reflexivity|exact Hn]|].
  split; [|unfold names; rewrite !map_app; reflexivity].
  intros k' v' Hk. rewrite <- !dict_get_gives. induction a as [|[k2 v2] a IH]; cbn [app dict_get].
  - destruct (teqb k' k) eqn:E; [apply teqb_eq in E; contradiction|]. reflexivity.
  - destruct (teqb k' k2); [reflexivity|]. apply IH. intros H; apply Hn; right; exact H.
Qed.

Lemma lookup_innermost e inner f outer k v :
  innermost e inner f outer k -> gives f k v -> lookup e k = Some v.
Proof.
  intros (-> & Hi & _) Hg. induction Hi as [|g inner Hg' Hi IH]; cbn [app lookup].
  - apply dict_get_gives in Hg. rewrite Hg. reflexivity.
  - apply dict_get_none in Hg'. rewrite Hg'. exact IH.
Qed.
Lemma lookup_unknown e k : lookup e k = None <-> unknown e k.
Proof.
  unfold unknown. induction e as [|f e IH]; [split; [constructor|reflexivity]|]. cbn [lookup].
  destruct (dict_get k f) eqn:E.
  - split; [discriminate|]. intros H. inversion H; subst. apply dict_get_none in H2. congruence.
  - apply dict_get_none in E. rewrite IH. split; [intros H; constructor; assumption|].
    intros H; inversion H; assumption.
Qed.

Lemma frame_del_spec k f :
  names (frame_del k f) = filter (fun x => negb (teqb k x)) (names f) /\
  (forall k', k' <> k -> dict_get k' (frame_del k f) = dict_get k' f) /\
  ~ In k (names (frame_del k f)).
Proof.
  unfold frame_del. induction f as [|[k2 v2] f (IH1 & IH2 & IH3)]; [cbn; tauto|].
  cbn [filter fst names map]. destruct (teqb k k2) eqn:E; cbn [negb].
  - apply teqb_eq in E; subst k2. split; [exact IH1|]. split; [|exact IH3].
    intros k' Hk. cbn [dict_get]. destruct (teqb k' k) eqn:E'; [apply teqb_eq in E'; contradiction|]. auto.
  - split; [cbn; unfold names in IH1; rewrite IH1; reflexivity|]. split.
    + intros k' Hk. cbn [dict_get]. destruct (teqb k' k2); [reflexivity|auto].
    + intros [H|H]; [|exact (IH3 H)]. cbn in H. subst. rewrite teqb_refl in E; discriminate.
Qed.
Lemma dict_get_app {A} k (a b : list (text * A)) :
  dict_get k (a ++ b) = match dict_get k a with Some v => Some v | None => dict_get k b end.
Proof. induction a as [|[k' v'] a IH]; [reflexivity|]. cbn [app dict_get]. destruct (teqb k k'); auto. Qed.
Lemma frame_set_spec k v f :
  gives (frame_set k v f) k v /\
  (forall k' v', k' <> k -> gives (frame_set k v f) k' v' <-> gives f k' v') /\
  names (frame_set k v f) = filter (fun x => negb (teqb k x)) (names f) ++ [k].
Proof.
  destruct (frame_del_spec k f) as (H1 & H2 & H3). unfold frame_set. split; [|split].
  - exists (frame_del k f), []. split; [reflexivity|exact H3].
  - intros k' v' Hk. rewrite <- !dict_get_gives, dict_get_app, (H2 _ Hk). cbn [dict_get].
    destruct (dict_get k' f); [tauto|].
    destruct (teqb k' k) eqn:E; [apply teqb_eq in E; contradiction|tauto].
  - unfold names at 1. rewrite map_app. fold (names (frame_del k f)). rewrite H1. reflexivity.
Qed.
Lemma filter_NoDup {A} (p : A -> bool) l : NoDup l -> NoDup (filter p l).
Proof.
  induction 1 as [|x l Hx H IH]; [constructor|]. cbn. destruct (p x); [|exact IH].
  constructor; [|exact IH]. rewrite filter_In. tauto.
Qed.
Lemma frame_set_nodup k v f : NoDup (names f) -> NoDup (names (frame_set k v f)).
Proof.
  intros H. destruct (frame_set_spec k v f) as (_ & _ & ->).
  assert (Hf : NoDup (filter (fun x => negb (teqb k x)) (names f))) by (apply filter_NoDup, H).
  apply (NoDup_Add (a := k) (l := filter (fun x => negb (teqb k x)) (names f))).
  - rewrite <- (app_nil_r (filter _ _)) at 1. apply Add_app.
  - split; [exact Hf|]. rewrite filter_In. intros [_ E]. rewrite teqb_refl in E. discriminate.
Qed.
(** An absent name goes to the end *)
Lemma frame_set_fresh k v f : ~ In k (names f) -> frame_set k v f = f ++ [(k, v)].
Proof.
  intros H. unfold frame_set. f_equal. unfold frame_del. induction f as [|[k' v'] f IH]; [reflexivity|].
  cbn [filter fst]. destruct (teqb k k') eqn:E.
  - apply teqb_eq in E; subst. exfalso; apply H; left; reflexivity.
  - cbn [negb]. f_equal. apply IH. intros Hk; apply H; right; exact Hk.
Qed.

Lemma update_innermost e inner f outer k v :
  innermost e inner f outer k ->
  exists f', update_variable k v e = inner ++ f' :: outer /\ same_but k v f f'.
Proof.
  intros (-> & Hi & Hf). exists (dict_set k v f). split; [|apply dict_set_same, Hf].
  induction Hi as [|g inner Hg Hi IH]; cbn [app update_variable].
  - apply dict_mem_names in Hf. rewrite Hf. reflexivity.
  - rewrite <- dict_mem_names in Hg. destruct (dict_mem k g); [contradiction Hg; reflexivity|]. rewrite IH. reflexivity.
Qed.
Lemma update_unknown e k v : unknown e k -> update_variable k v e = e.
Proof.
  unfold unknown. induction 1 as [|f e Hf H IH]; [reflexivity|]. cbn [update_variable].
  rewrite <- dict_mem_names in Hf. destruct (dict_mem k f); [contradiction Hf; reflexivity|]. rewrite IH. reflexivity.
Qed.
Lemma unassigned_first k before after :
  Forall (fun e => snd e <> NBound) before ->
  unassigned (before ++ (k, NBound) :: after) = Some k.
Proof.
  induction 1 as [|[k' v'] l Hv H IH]; [reflexivity|]. cbn [app unassigned]. cbn in Hv.
  destruct v'; try exact IH. contradiction.
Qed.
Lemma unassigned_none f : Forall (fun e => snd e <> NBound) f -> unassigned f = None.
Proof.
  induction 1 as [|[k' v'] l Hv H IH]; [reflexivity|]. cbn [unassigned]. cbn in Hv.
  destruct v'; try exact IH. contradiction.
Qed.
