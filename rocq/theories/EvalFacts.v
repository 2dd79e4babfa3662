(** Evaluation (proofs only). *)
From Coq Require Import List NArith ZArith Bool Lia ZifyBool ZifyNat ZifyN.
From Verif Require Import PyStr Ast Lex Parse Final Eval PyStrFacts EnvSpec EnvFacts EvalSpec EvalMono EvalKeep EvalPure.
Import ListNotations.

Section Facts.
Variables (ec : ectx) (parse : text -> M (list node)).
Notation ev := (yueval ec parse).
Notation fin := (finishes ec parse).
Notation evs := (evals ec parse).

(** ** Budgets *)
Lemma finishes_det x e s r1 r2 : fin x e s r1 -> fin x e s r2 -> r1 = r2.
Proof.
  intros [H1 [n E1]] [H2 [m E2]]. subst r1 r2. destruct (Nat.le_ge_cases n m) as [H|H].
  - rewrite (yueval_mono ec parse n m); auto.
  - symmetry. rewrite (yueval_mono ec parse m n); auto.
Qed.
Lemma more_budget n m x e s : (n <= m)%nat -> ev n x e s <> Fuel -> ev m x e s = ev n x e s.
Proof. apply yueval_mono. Qed.
Lemma evals_fin x e s v e' s' : evs x e s v e' s' <-> fin x e s (Ok (v, e', s')).
Proof. unfold evals, finishes. split; [intros H; split; [discriminate|exact H]|intros [_ H]; exact H]. Qed.
Lemma evals_det x e s v1 e1 s1 v2 e2 s2 : evs x e s v1 e1 s1 -> evs x e s v2 e2 s2 -> v1 = v2 /\ e1 = e2 /\ s1 = s2.
Proof. rewrite !evals_fin. intros H1 H2. pose proof (finishes_det _ _ _ _ _ H1 H2) as H. injection H. auto. Qed.

(** computations indexed by a budget *)
Definition rises {A} (m : nat -> E A) : Prop := forall i j, (i <= j)%nat -> le_E (m i) (m j).
Definition gives_r {A} (m : nat -> E A) e s (r : res (A * env * yst)) : Prop := r <> Fuel /\ exists n, m n e s = r.
Lemma rises_ev x : rises (fun n => ev n x).
Proof.
  intros i j H e s. destruct (ev i x e s) as [p|p|] eqn:E1; [| |left; reflexivity];
    right; rewrite <- E1; apply yueval_mono; rewrite ?E1; auto; discriminate.
Qed.
Lemma gives_det {A} (m : nat -> E A) e s r1 r2 : rises m -> gives_r m e s r1 -> gives_r m e s r2 -> r1 = r2.
Proof.
  intros Hm [H1 [i E1]] [H2 [j E2]]. subst. destruct (Nat.le_ge_cases i j) as [H|H].
  - destruct (Hm i j H e s); congruence.
  - destruct (Hm j i H e s); congruence.
Qed.
Lemma rises_bind {A B} (m : nat -> E A) (k : nat -> A -> E B) :
  rises m -> (forall a, rises (fun n => k n a)) -> rises (fun n => ebind (m n) (k n)).
Proof. intros Hm Hk i j H. apply le_bind; [apply Hm, H|]. intros a. apply Hk, H. Qed.
Lemma rises_const {A} (m : E A) : rises (fun _ => m).
Proof. intros i j H. apply le_refl. Qed.
Lemma rises_frame {A} f (m : nat -> E A) : rises m -> rises (fun n => in_frame f (m n)).
Proof. intros H i j Hij. apply le_in_frame, H, Hij. Qed.
Lemma gives_bind {A B} (m : nat -> E A) (k : nat -> A -> E B) e s a e1 s1 r :
  rises m -> (forall a, rises (fun n => k n a)) ->
  gives_r m e s (Ok (a, e1, s1)) ->
  gives_r (fun n => ebind (m n) (k n)) e s r <-> gives_r (fun n => k n a) e1 s1 r.
Proof.
  intros Hm Hk [_ [i Ei]]. split; intros [Hr [j Ej]]; (split; [exact Hr|]).
  - exists j. unfold ebind in Ej. destruct (m j e s) as [[[a' e'] s']| |] eqn:E1.
    + assert (H : Ok (a', e', s') = Ok (a, e1, s1)).
      { apply (gives_det m e s); [exact Hm| |]; split; try discriminate; eauto. }
      injection H as -> -> ->. exact Ej.
    + assert (H : Err e0 = Ok (a, e1, s1)); [|discriminate H].
      apply (gives_det m e s); [exact Hm| |]; split; try discriminate; eauto.
    + congruence.
  - exists (Nat.max i j). unfold ebind. destruct (Hm i (Nat.max i j) (Nat.le_max_l i j) e s) as [H|H]; [congruence|].
    rewrite H, Ei. destruct (Hk a j (Nat.max i j) (Nat.le_max_r i j) e1 s1) as [H'|H']; congruence.
Qed.
Lemma gives_bind_inv {A B} (m : nat -> E A) (k : nat -> A -> E B) e s b e2 s2 :
  gives_r (fun n => ebind (m n) (k n)) e s (Ok (b, e2, s2)) ->
  exists a e1 s1, gives_r m e s (Ok (a, e1, s1)) /\ gives_r (fun n => k n a) e1 s1 (Ok (b, e2, s2)).
Proof.
  intros [_ [j Ej]]. unfold ebind in Ej. destruct (m j e s) as [[[a' e'] s']| |] eqn:E1; try discriminate Ej.
  exists a', e', s'. split; (split; [discriminate|eauto]).
Qed.
Lemma gives_err {A B} (m : nat -> E A) (k : nat -> A -> E B) e s x :
  gives_r m e s (Err x) -> gives_r (fun n => ebind (m n) (k n)) e s (Err x).
Proof. intros [_ [i Ei]]. split; [discriminate|]. exists i. unfold ebind. rewrite Ei. reflexivity. Qed.
Lemma gives_ret {A} (a : A) e s r : gives_r (fun _ => eret a) e s r <-> r = Ok (a, e, s).
Proof.
  split; [intros [_ [_ H]]; symmetry; exact H|intros ->; split; [discriminate|exists O; reflexivity]].
Qed.
Lemma gives_ext {A} (m m' : nat -> E A) e s r : (forall n, m n e s = m' n e s) -> gives_r m e s r <-> gives_r m' e s r.
Proof. intros H. unfold gives_r. setoid_rewrite H. tauto. Qed.
(** evaluation is one turn of the loop *)
Lemma fin_body x e s r : fin x e s r <-> gives_r (fun n => eval_body ec (ev n) parse x) e s r.
Proof.
  split; intros [Hr [n En]]; (split; [exact Hr|]).
  - destruct n as [|n]; [cbn in En; congruence|]. exists n. exact En.
  - exists (S n). exact En.
Qed.
Lemma fin_gives x e s r : fin x e s r <-> gives_r (fun n => ev n x) e s r.
Proof. reflexivity. Qed.

(** ** Conditionals *)
Lemma float_zero t :
  existsb (fun c => is_digit c && negb (c =? 48)%N)
    (firstn (span_len (fun c => negb ((c =? 101) || (c =? 69))%N) t) t) = false <-> zero_digits t.
Proof.
  unfold zero_digits. induction t as [|c t IH].
  - cbn. split; [|reflexivity]. intros _. exists [], []. repeat split; constructor.
  - cbn [span_len]. destruct (negb ((c =? 101) || (c =? 69))%N) eqn:En.
    + cbn [firstn existsb]. rewrite orb_false_iff, IH. unfold is_digit. split.
      * intros [Hc (m & x & -> & Hm & Hx)]. exists (c :: m), x. repeat split; [|exact Hx].
        constructor; [lia|exact Hm].
      * intros ([|d m] & x & Ht & Hm & Hx).
        { cbn [app] in Ht. subst x. exfalso. lia. }
        cbn [app] in Ht. injection Ht as -> ->. inversion Hm as [|? ? H1 H2]. split; [lia|eauto].
    + cbn [firstn existsb]. split; [|reflexivity]. intros _. exists [], (c :: t). repeat split; [constructor|lia].
Qed.
Ltac fv_cases H := destruct H as [H|[H|[H|[H|[H|[? [H ?]]]]]]].
Lemma truthy_spec v : is_term v = true -> truthy v = false <-> false_value v.
Proof.
  intros Ht. unfold false_value.
  destruct v; try discriminate Ht; cbn [truthy str_of list_of];
    try (split; [intros H; first [discriminate H|solve [auto 8]]|intros H; fv_cases H; first [discriminate H|reflexivity]]);
    try (match goal with |- context [s_txt ?q] => destruct (s_txt q) as [|? ?] end;
         (split; [intros H; first [discriminate H|solve [auto 8]]|intros H; fv_cases H; first [discriminate H|reflexivity]]));
    try (match goal with |- context [match ?q with _ => _ end] => destruct q as [|? ?] end;
         (split; [intros H; first [discriminate H|solve [auto 8]]|intros H; fv_cases H; first [discriminate H|reflexivity]])).
  - destruct (Z.eqb_spec z 0) as [->|Hz]; cbn [negb]; split; intros H; try discriminate H; auto.
    fv_cases H; congruence.
  - destruct b; split; intros H; try discriminate H; auto. fv_cases H; congruence.
  - rewrite float_zero. split; [eauto 10|]. intros H. fv_cases H; try discriminate H. injection H as ->. assumption.
Qed.
Lemma cond_selected c a b e s v e1 s1 l :
  evs c e s v e1 s1 -> selects v a b l -> same_outcomes ec parse (NCond c a b) e s l e1 s1.
Proof.
  intros Hc [Ht Hl] r. rewrite fin_body. cbn [eval_body].
  rewrite (gives_bind (fun n => ev n c) _ e s v e1 s1);
    [|apply rises_ev| |apply evals_fin in Hc; exact Hc].
  - rewrite Ht. replace (if truthy v then a else b) with l; [reflexivity|].
    pose proof (truthy_spec v Ht) as Hv. destruct Hl as [[Hf ->]|[Hf ->]]; destruct (truthy v); try reflexivity; exfalso; intuition discriminate.
  - intros w. destruct (is_term w); [destruct (truthy w); apply rises_ev|apply rises_const].
Qed.
Lemma cond_fails c a b e s x : fin c e s (Err x) -> fin (NCond c a b) e s (Err x).
Proof. intros H. apply fin_body. cbn [eval_body]. apply gives_err. exact H. Qed.
Lemma cond_open c a b e s v e1 s1 : evs c e s v e1 s1 -> is_term v = false ->
  evs (NCond c a b) e s (NCondClosure v a b) e1 s1.
Proof.
  intros Hc Ht. apply evals_fin, fin_body. cbn [eval_body].
  apply (gives_bind (fun n => ev n c) _ e s v e1 s1).
  - apply rises_ev.
  - intros w. destruct (is_term w); [destruct (truthy w); apply rises_ev|apply rises_const].
  - apply evals_fin in Hc. exact Hc.
  - rewrite Ht. split; [discriminate|]. exists O. reflexivity.
Qed.
End Facts.
