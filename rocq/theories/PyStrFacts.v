(** Facts about Python strings (proofs only). *)
From Coq Require Import List NArith ZArith Bool Lia.
From Coq Require Import ZifyBool ZifyNat ZifyN.
From Verif Require Import PyStr.
Import ListNotations.
Open Scope N_scope.

Lemma teqb_eq a b : teqb a b = true <-> a = b.
Proof.
  revert b; induction a as [|x a IH]; intros [|y b]; cbn [teqb];
    try (split; [discriminate|discriminate]); try (split; reflexivity).
  rewrite andb_true_iff, N.eqb_eq, IH. split; [intros [-> ->]; reflexivity|intros [= -> ->]; auto].
Qed.
Lemma teqb_refl a : teqb a a = true.
Proof. apply teqb_eq; reflexivity. Qed.
Lemma teqb_neq a b : teqb a b = false <-> a <> b.
Proof.
  split; intros H.
  - intros E. apply teqb_eq in E. congruence.
  - destruct (teqb a b) eqn:E; [apply teqb_eq in E; contradiction|reflexivity].
Qed.
Lemma teqb_sym a b : teqb a b = teqb b a.
Proof.
  destruct (teqb a b) eqn:E; symmetry.
  - apply teqb_eq in E; subst; apply teqb_refl.
  - apply teqb_neq in E. apply teqb_neq. congruence.
Qed.
Lemma teqb_spec a b : reflect (a = b) (teqb a b).
Proof. destruct (teqb a b) eqn:E; constructor; [apply teqb_eq|apply teqb_neq]; exact E. Qed.

Lemma text_eq_dec (a b : text) : {a = b} + {a <> b}.
Proof. destruct (teqb a b) eqn:E; [left; apply teqb_eq|right; apply teqb_neq]; exact E. Qed.

Lemma startswith_spec p s : startswith p s = true <-> exists r, s = p ++ r.
Proof.
  revert s; induction p as [|x p IH]; intros s; cbn [startswith app].
  - split; [exists s; reflexivity|reflexivity].
  - destruct s as [|y s].
    + split; [discriminate|intros [r H]; discriminate].
    + rewrite andb_true_iff, N.eqb_eq, IH. split.
      * intros [-> [r ->]]. exists r; reflexivity.
      * intros [r [= -> ->]]. split; [reflexivity|exists r; reflexivity].
Qed.
Lemma startswith_app p r : startswith p (p ++ r) = true.
Proof. apply startswith_spec. exists r; reflexivity. Qed.
Lemma startswith_skipn p s : startswith p s = true -> s = p ++ skipn (length p) s.
Proof.
  intros H. apply startswith_spec in H as [r ->]. f_equal.
  rewrite skipn_app, skipn_all, Nat.sub_diag. reflexivity.
Qed.
Lemma startswith_length p s : startswith p s = true -> (length p <= length s)%nat.
Proof. intros H. apply startswith_spec in H as [r ->]. rewrite app_length. lia. Qed.

Lemma has_char_In c s : has_char c s = true <-> In c s.
Proof.
  unfold has_char. rewrite existsb_exists. split.
  - intros [x [H E]]. apply N.eqb_eq in E. subst; exact H.
  - intros H. exists c. split; [exact H|apply N.eqb_refl].
Qed.
Lemma has_char_false c s : has_char c s = false <-> ~ In c s.
Proof.
  rewrite <- has_char_In. destruct (has_char c s); split; intros; congruence.
Qed.

(** find_sub gives the first occurrence *)
Lemma find_sub_nil s : find_sub [] s = Some O.
Proof. destruct s; reflexivity. Qed.
Lemma find_sub_some p s i :
  find_sub p s = Some i ->
  (i <= length s)%nat /\ s = firstn i s ++ p ++ skipn (i + length p) s
  /\ (forall j, (j < i)%nat -> startswith p (skipn j s) = false).
Proof.
  revert i; induction s as [|c s IH]; intros i; cbn [find_sub].
  - destruct (startswith p []) eqn:E; [|discriminate].
    intros [= <-]. apply startswith_skipn in E. cbn in E |- *. split; [lia|].
    split; [exact E|intros j Hj; lia].
  - destruct (startswith p (c :: s)) eqn:E.
    + intros [= <-]. cbn [firstn app]. split; [cbn; lia|].
      split; [apply startswith_skipn in E; exact E|intros j Hj; lia].
    + destruct (find_sub p s) as [k|]; [|discriminate].
      intros [= <-]. destruct (IH k eq_refl) as [Hk [H1 H2]]. split; [cbn; lia|]. split.
      * cbn [firstn app skipn Nat.add]. rewrite <- H1. reflexivity.
      * intros [|j] Hj; [exact E|]. cbn [skipn]. apply H2. lia.
Qed.
Lemma find_sub_none p s : find_sub p s = None -> forall j, startswith p (skipn j s) = false.
Proof.
  induction s as [|c s IH]; cbn [find_sub].
  - destruct (startswith p []) eqn:E; [discriminate|].
    intros _ [|j]; exact E.
  - destruct (startswith p (c :: s)) eqn:E; [discriminate|].
    destruct (find_sub p s) as [k|]; [discriminate|].
    intros _ [|j]; [exact E|]. cbn [skipn]. apply IH; reflexivity.
Qed.

(** replacement of one character *)
Lemma replace_char c d s :
  replace [c] [d] s = map (fun x => if x =? c then d else x) s.
Proof.
  unfold replace. induction s as [|x s IH]; [reflexivity|].
  cbn [replace_skip map startswith length pred]. rewrite andb_true_r, (N.eqb_sym c x).
  destruct (x =? c); cbn [app]; f_equal; exact IH.
Qed.

Lemma skipn_length_app {A} (a b : list A) : skipn (length a) (a ++ b) = b.
Proof. rewrite skipn_app, skipn_all, Nat.sub_diag. reflexivity. Qed.
Lemma firstn_length_app {A} (a b : list A) : firstn (length a) (a ++ b) = a.
Proof. rewrite firstn_app, firstn_all, Nat.sub_diag. cbn [firstn]. apply app_nil_r. Qed.

Lemma skipn_skipn' {A} (i j : nat) (l : list A) : skipn i (skipn j l) = skipn (j + i) l.
Proof.
  revert l; induction j as [|j IH]; intros l; [reflexivity|].
  destruct l as [|x l]; [cbn; apply skipn_nil|]. cbn [skipn Nat.add]. apply IH.
Qed.

Lemma lit_app s t : lit (String.append s t) = lit s ++ lit t.
Proof.
  unfold lit. induction s as [|a s IH]; [reflexivity|].
  cbn [String.append String.list_ascii_of_string map app]. rewrite IH. reflexivity.
Qed.

(** ** os.path *)
Lemma rfind_char_some c s i :
  rfind_char c s = Some i ->
  exists a b, s = a ++ c :: b /\ length a = i /\ ~ In c b.
Proof.
  revert i; induction s as [|x s IH]; intros i; cbn [rfind_char]; [discriminate|].
  destruct (rfind_char c s) as [k|] eqn:E.
  - intros [= <-]. destruct (IH k eq_refl) as (a & b & -> & <- & H).
    exists (x :: a), b. auto.
  - destruct (x =? c) eqn:Ex; [|discriminate]. intros [= <-]. apply N.eqb_eq in Ex; subst.
    exists [], s. split; [reflexivity|]. split; [reflexivity|]. clear -E.
    induction s as [|y s IH]; [auto|]. cbn [rfind_char] in E.
    destruct (rfind_char c s); [discriminate|]. destruct (y =? c) eqn:Ey; [discriminate|].
    intros [->|H]; [rewrite N.eqb_refl in Ey; discriminate|exact (IH eq_refl H)].
Qed.
Lemma rfind_char_none c s : rfind_char c s = None <-> ~ In c s.
Proof.
  induction s as [|y s IH]; [split; auto|]. cbn [rfind_char].
  destruct (rfind_char c s) as [k|] eqn:E.
  - split; [discriminate|]. intros H. exfalso. destruct IH as [_ IH].
    assert (Some k = None) as X by (apply IH; intros Hs; apply H; right; exact Hs). discriminate X.
  - destruct (y =? c) eqn:Ey.
    + apply N.eqb_eq in Ey; subst. split; [discriminate|]. intros H. exfalso. apply H. left; reflexivity.
    + split; [|reflexivity]. intros _ [->|H]; [rewrite N.eqb_refl in Ey; discriminate|].
      apply IH in H; [exact H|reflexivity].
Qed.
Lemma rfind_char_last c a b : ~ In c b -> rfind_char c (a ++ c :: b) = Some (length a).
Proof.
  intros Hb. induction a as [|x a IH]; cbn [app rfind_char length].
  - apply rfind_char_none in Hb. rewrite Hb, N.eqb_refl. reflexivity.
  - rewrite IH. reflexivity.
Qed.

Lemma splitext_app p : fst (splitext p) ++ snd (splitext p) = p.
Proof.
  unfold splitext. destruct (rfind_char c_dot p) as [d|]; [|apply app_nil_r].
  destruct (_ && _); cbn [fst snd]; [apply firstn_skipn|apply app_nil_r].
Qed.
Lemma splitext_ext p :
  snd (splitext p) <> [] ->
  exists r, snd (splitext p) = c_dot :: r /\ ~ In c_dot r /\ ~ In c_slash r.
Proof.
  unfold splitext. destruct (rfind_char c_dot p) as [d|] eqn:E; [|intros H; contradiction].
  destruct (Nat.leb (base_index p) d && _) eqn:B; [|intros H; contradiction].
  intros _. cbn [snd]. apply rfind_char_some in E as (a & b & -> & <- & Hb).
  exists b. rewrite skipn_length_app. repeat split; [exact Hb|].
  apply andb_true_iff in B as [B _]. apply Nat.leb_le in B. unfold base_index in B.
  intros Hs.
  destruct (rfind_char c_slash (a ++ c_dot :: b)) as [i|] eqn:Ei.
  - apply rfind_char_some in Ei as (u & v & Ev & <- & Hv).
    assert (length (a ++ [c_dot]) <= length u)%nat as L.
    { assert (Hlen := f_equal (@length _) Ev). rewrite !app_length in Hlen. cbn [length] in Hlen.
      rewrite app_length; cbn [length].
      destruct (Nat.le_gt_cases (length a + 1) (length u)) as [|G]; [exact H|]. exfalso.
      apply Hv. assert (S1 := f_equal (skipn (length u + 1)) Ev).
      replace (u ++ c_slash :: v) with ((u ++ [c_slash]) ++ v) in S1
        by (rewrite <- app_assoc; reflexivity).
      rewrite skipn_app in S1.
      replace (length u + 1)%nat with (length (u ++ [c_slash])) in S1 at 3
        by (rewrite app_length; reflexivity).
      rewrite skipn_length_app in S1. rewrite <- S1. apply in_or_app. right.
      replace (length u + 1 - length a)%nat with O by lia. right; exact Hs. }
    rewrite app_length in L. cbn [length] in L. lia.
  - apply rfind_char_none in Ei. apply Ei. apply in_or_app. right. right. exact Hs.
Qed.
