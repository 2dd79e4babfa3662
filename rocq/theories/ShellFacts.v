(** Output names (proofs only). *)
From Coq Require Import List NArith ZArith Bool Lia.
From Coq Require Import ZifyBool ZifyNat ZifyN.
From Verif Require Import PyStr Ast Lex Shell PyStrFacts ShellSpec.
Import ListNotations.
Open Scope N_scope.

Lemma has_char_app c a b : has_char c (a ++ b) = has_char c a || has_char c b.
Proof. unfold has_char. apply existsb_app. Qed.
Lemma simple_has n : simple n -> has_char c_slash n = false.
Proof. intros H. apply has_char_false, H. Qed.
Lemma basename_simple n : simple n -> basename n = n.
Proof.
  intros H. apply simple_has in H. destruct n as [|c n]; [reflexivity|]. cbn [basename]. rewrite H. reflexivity.
Qed.
Lemma basename_is_simple p : simple (basename p).
Proof.
  induction p as [|c p IH]; [intros []|]. cbn [basename]. destruct (has_char c_slash (c :: p)) eqn:E; [exact IH|].
  apply has_char_false, E.
Qed.
Lemma basename_app p s : simple s -> basename (p ++ s) = basename p ++ s.
Proof.
  intros Hs. induction p as [|c p IH]; [apply basename_simple, Hs|].
  cbn [app basename]. change (c :: p ++ s) with ((c :: p) ++ s).
  rewrite has_char_app, (simple_has _ Hs), orb_false_r.
  destruct (has_char c_slash (c :: p)); [exact IH|reflexivity].
Qed.
Lemma basename_slash d b : simple b -> basename (d ++ 47 :: b) = b.
Proof.
  intros Hb. assert (E : basename (47 :: b) = b).
  { cbn [basename]. change (has_char c_slash (47 :: b)) with true. cbn iota. apply basename_simple, Hb. }
  induction d as [|c d IH]; [exact E|]. cbn [app basename].
  change (c :: d ++ 47 :: b) with ((c :: d) ++ 47 :: b). rewrite has_char_app.
  change (has_char c_slash (47 :: b)) with true. rewrite orb_true_r. exact IH.
Qed.
Lemma path_join_base dir b : simple b -> basename (path_join dir b) = b.
Proof.
  intros Hb. unfold path_join. destruct (startswith [c_slash] b); [apply basename_simple, Hb|].
  destruct dir as [|c dir]; [apply basename_simple, Hb|].
  destruct (rfind_char c_slash (c :: dir)) as [i|] eqn:E.
  - destruct (Nat.eqb (S i) (length (c :: dir))) eqn:El.
    + apply rfind_char_some in E as (a & r & E & Hi & Hr). rewrite E in *. apply Nat.eqb_eq in El.
      rewrite app_length in El. cbn in El. destruct r; [|cbn in El; lia].
      rewrite <- app_assoc. cbn [app]. apply basename_slash, Hb.
    + apply basename_slash, Hb.
  - apply basename_slash, Hb.
Qed.
Lemma re_e_yu_group e g : re_e_yu e = Some (Some g) -> exists a b c, e = a :: b :: c :: 45 :: g.
Proof.
  unfold re_e_yu. destruct (startswith _ _) eqn:Es; [|discriminate].
  destruct e as [|a [|b [|c e]]]; try discriminate. cbn [skipn].
  destruct e as [|d [|d2 e]]; [discriminate| |].
  - destruct (d =? 10); discriminate.
  - destruct ((d =? 45) && negb (has_char c_dot (d2 :: e))) eqn:E; [|discriminate].
    intros [= <-]. apply andb_true_iff in E as [E _]. apply N.eqb_eq in E; subst d.
    exists a, b, c. reflexivity.
Qed.
Lemma ext_simple p : simple (snd (splitext p)).
Proof.
  destruct (snd (splitext p)) as [|c e] eqn:E; [intros []|].
  destruct (splitext_ext p) as (r & Hr & _ & Hs); [rewrite E; discriminate|].
  rewrite <- E, Hr. intros [H|H]; [discriminate|exact (Hs H)].
Qed.

Lemma output_base dir fn : basename (match dir with [] => fn | _ => path_join dir (basename fn) end) = basename fn.
Proof. destruct dir; [reflexivity|]. apply path_join_base, basename_is_simple. Qed.
Lemma output_not_input dir fn : basename (output_fn dir fn) <> basename fn.
Proof.
  rewrite <- (output_base dir fn). unfold output_fn.
  set (base := match dir with [] => fn | _ => path_join dir (basename fn) end). clearbody base.
  assert (Hs := splitext_app base). assert (Hx := ext_simple base).
  destruct (splitext base) as [o e]. cbn [fst snd] in *. subst base.
  rewrite (basename_app _ _ Hx).
  assert (L : forall s, simple s -> length s <> length e -> basename (o ++ s) <> basename o ++ e).
  { intros s H1 H2 E. rewrite basename_app in E by exact H1. apply app_inv_head in E. congruence. }
  destruct e as [|c e].
  - apply L; [vm_compute; intuition discriminate|discriminate].
  - destruct (re_e_yu (c :: e)) as [[g|]|] eqn:Ey.
    + apply re_e_yu_group in Ey as (a & b & d & Ey). rewrite Ey in *.
      change ([c_dot] ++ g) with (46 :: g). apply L; [|cbn; lia].
      intros [H|H]; [discriminate|]. apply Hx. do 4 right. exact H.
    + destruct (snd (splitext o)).
      * apply L; [vm_compute; intuition discriminate|].
        unfold re_e_yu in Ey. destruct (startswith _ _); [|discriminate].
        destruct e as [|d [|d2 [|d3 [|d4 e]]]]; cbn; try lia.
        cbn in Ey. destruct (_ && _); discriminate.
      * rewrite <- (app_nil_r o) at 1. apply L; [intros []|discriminate].
    + apply L; [|cbn; lia]. intros H. apply in_app_or in H as [H|H]; [vm_compute in H; intuition discriminate|].
      exact (Hx H).
Qed.

(** ** the documented rules *)
Lemma base_index_app d b : (d = [] \/ exists e, d = e ++ [47]) -> simple b -> base_index (d ++ b) = length d.
Proof.
  intros Hd Hb. unfold base_index. destruct Hd as [->|[e ->]].
  - cbn [app]. apply rfind_char_none in Hb. change c_slash with 47. rewrite Hb. reflexivity.
  - rewrite <- app_assoc. cbn [app]. change c_slash with 47. rewrite rfind_char_last by exact Hb.
    rewrite app_length. cbn. lia.
Qed.
Lemma splitext_stem p e : stem p -> ~ In 46 e -> ~ In 47 e -> splitext (p ++ 46 :: e) = (p, 46 :: e).
Proof.
  intros (d & b & -> & Hd & Hb & Hx) He1 He2. unfold splitext.
  change c_dot with 46. rewrite rfind_char_last by exact He1.
  assert (Hsb : simple (b ++ 46 :: e)).
  { intros H. apply in_app_or in H as [H|[H|H]]; [exact (Hb H)|discriminate|exact (He2 H)]. }
  rewrite <- app_assoc. rewrite (base_index_app d _ Hd Hsb).
  assert (El : length (d ++ b) = (length d + length b)%nat) by apply app_length.
  replace (Nat.leb (length d) (length (d ++ b))) with true by (symmetry; apply Nat.leb_le; lia).
  replace (length (d ++ b) - length d)%nat with (length b) by lia.
  rewrite skipn_length_app, firstn_length_app.
  replace (existsb (fun c => negb (c =? 46)) b) with true.
  - cbn [andb]. rewrite app_assoc, firstn_length_app, skipn_length_app. reflexivity.
  - symmetry. apply existsb_exists. apply Exists_exists in Hx as (c & H1 & H2). exists c.
    split; [exact H1|]. apply negb_true_iff, N.eqb_neq, H2.
Qed.
Lemma any_yu_starts y r : any_yu y -> startswith (lit ".yu") (lower (46 :: y ++ r)) = true.
Proof.
  intros (a & b & -> & Ha & Hb). cbn [app lower map]. destruct Ha as [-> | ->], Hb as [-> | ->]; reflexivity.
Qed.
Lemma any_yu_simple y : any_yu y -> ~ In 46 y /\ ~ In 47 y.
Proof. intros (a & b & -> & Ha & Hb). cbn. intuition lia. Qed.
Lemma output_yu_e p y e : stem p -> any_yu y -> ext e -> output_fn [] (p ++ 46 :: y ++ 45 :: e) = p ++ 46 :: e.
Proof.
  intros Hp Hy (He & He1 & He2). destruct (any_yu_simple y Hy) as [Hy1 Hy2]. unfold output_fn.
  rewrite splitext_stem; [|exact Hp| |].
  - unfold re_e_yu. rewrite (any_yu_starts y (45 :: e) Hy). destruct Hy as (a & b & -> & _).
    cbn [app skipn]. destruct e as [|c e]; [contradiction|].
    change (45 =? 45) with true. replace (has_char c_dot (c :: e)) with false; [reflexivity|].
    symmetry. apply has_char_false. exact He1.
  - intros H. apply in_app_or in H as [H|[H|H]]; [exact (Hy1 H)|discriminate|exact (He1 H)].
  - intros H. apply in_app_or in H as [H|[H|H]]; [exact (Hy2 H)|discriminate|exact (He2 H)].
Qed.
Lemma output_e_yu p e y : stem p -> any_yu y -> ext e -> output_fn [] ((p ++ 46 :: e) ++ 46 :: y) = p ++ 46 :: e.
Proof.
  intros Hp Hy (He & He1 & He2). destruct (any_yu_simple y Hy) as [Hy1 Hy2]. unfold output_fn.
  rewrite splitext_stem; [| |exact Hy1|exact Hy2].
  - unfold re_e_yu. rewrite <- (app_nil_r y). rewrite (any_yu_starts y [] Hy). destruct Hy as (a & b & -> & _).
    cbn [app skipn]. rewrite splitext_stem by assumption. reflexivity.
  - destruct Hp as (d & b & -> & Hd & Hb & Hx). exists d, (b ++ 46 :: e). repeat split.
    + rewrite app_assoc. reflexivity.
    + exact Hd.
    + intros H. apply in_app_or in H as [H|[H|H]]; [exact (Hb H)|discriminate|exact (He2 H)].
    + apply Exists_app. left. exact Hx.
Qed.
Lemma output_yu p y : stem p -> snd (splitext p) = [] -> any_yu y -> output_fn [] (p ++ 46 :: y) = p ++ lit ".yugen".
Proof.
  intros Hp Hs Hy. destruct (any_yu_simple y Hy) as [Hy1 Hy2]. unfold output_fn.
  rewrite splitext_stem by assumption.
  unfold re_e_yu. rewrite <- (app_nil_r y). rewrite (any_yu_starts y [] Hy). destruct Hy as (a & b & -> & _).
  cbn [app skipn]. rewrite Hs. reflexivity.
Qed.
Lemma output_e p e : stem p -> ext e -> (forall y r, e = y ++ r -> ~ any_yu y) ->
  output_fn [] (p ++ 46 :: e) = p ++ lit ".yugen" ++ 46 :: e.
Proof.
  intros Hp (He & He1 & He2) Hn. unfold output_fn. rewrite splitext_stem by assumption.
  replace (re_e_yu (46 :: e)) with (@None (option text)); [reflexivity|].
  unfold re_e_yu. destruct (startswith (lit ".yu") (lower (46 :: e))) eqn:E; [|reflexivity]. exfalso.
  destruct e as [|a [|b e]].
  - contradiction.
  - cbn in E. rewrite andb_false_r in E. discriminate.
  - apply (Hn [a; b] e eq_refl). exists a, b. split; [reflexivity|].
    cbn -[lower_char N.eqb] in E. rewrite andb_true_r in E. apply andb_true_iff in E as [_ E].
    apply andb_true_iff in E as [Ea Eb].
    change (Ascii.N_of_ascii _) with 121 in Ea. change (Ascii.N_of_ascii _) with 117 in Eb.
    unfold lower_char in *.
    destruct ((65 <=? a) && (a <=? 90)) eqn:Ea1; destruct ((65 <=? b) && (b <=? 90)) eqn:Eb1; lia.
Qed.
Lemma output_none p : snd (splitext p) = [] -> output_fn [] p = p ++ lit ".yugen".
Proof.
  intros H. unfold output_fn. assert (Ha := splitext_app p). destruct (splitext p) as [o e]. cbn in *. subst e.
  rewrite app_nil_r in Ha. subst. reflexivity.
Qed.
