(** Locations and AST dumps (proofs only). *)
From Coq Require Import List NArith ZArith Bool Lia.
From Coq Require Import ZifyBool ZifyNat ZifyN.
From Verif Require Import PyStr Ast Lex Loc PyStrFacts LocSpec FinalSpec FinalFacts.
Import ListNotations.
Open Scope N_scope.

(** ** padded *)
Lemma padded_refl a : padded a a.
Proof. induction a; constructor; assumption. Qed.
Lemma padded_app a b a' b' : padded a b -> padded a' b' -> padded (a ++ a') (b ++ b').
Proof. induction 1; intros H'; [exact H'| |]; cbn [app]; constructor; auto. Qed.
Lemma padded_nil w : Forall (fun c => c = 10 \/ c = 32) w -> padded [] w.
Proof. induction 1; constructor; assumption. Qed.
Lemma padded_pre w a b : Forall (fun c => c = 10 \/ c = 32) w -> padded a b -> padded a (w ++ b).
Proof. intros Hw H. apply (padded_app [] w a b); [apply padded_nil, Hw|exact H]. Qed.
Lemma padded_post w a b : Forall (fun c => c = 10 \/ c = 32) w -> padded a b -> padded a (b ++ w).
Proof. intros Hw H. rewrite <- (app_nil_r a). apply padded_app; [exact H|apply padded_nil, Hw]. Qed.
Lemma indent_blank d : Forall (fun c => c = 10 \/ c = 32) (pretty_indent d).
Proof.
  unfold pretty_indent. induction d as [|d IH]; [constructor|]. cbn [repeat_text]. apply Forall_app. split; [|exact IH].
  constructor; [right; reflexivity|]. constructor; [right; reflexivity|]. constructor.
Qed.
Lemma lf_blank : Forall (fun c => c = 10 \/ c = 32) [c_lf].
Proof. constructor; [left; reflexivity|constructor]. Qed.
Lemma slice_app i j st : (i <= j)%nat -> firstn i st ++ slice i j st = firstn j st.
Proof.
  intros H. unfold slice. revert i j H. induction st as [|c st IH]; intros i j H.
  - rewrite !firstn_nil, skipn_nil, firstn_nil. reflexivity.
  - destruct i as [|i]; [rewrite Nat.sub_0_r; reflexivity|]. destruct j as [|j]; [lia|].
    change (S j - S i)%nat with (j - i)%nat. cbn [firstn skipn app]. f_equal. apply IH. lia.
Qed.

Definition entry_ok (e : nat * (option nat * nat)) : Prop :=
  match fst (snd e) with Some j => (fst e <= j)%nat | None => True end.
Lemma scan_ok st : forall i stack, Forall (fun o => (o < i)%nat) stack -> Forall entry_ok (scan_brackets i stack st).
Proof.
  induction st as [|c st IH]; intros i stack Hs; [constructor|]. cbn [scan_brackets].
  assert (Hs' : Forall (fun o => (o < S i)%nat) stack) by (eapply Forall_impl; [|exact Hs]; cbn; lia).
  destruct (is_closing c).
  - destruct stack as [|o stack]; [apply IH; constructor|].
    inversion Hs as [|? ? Ho Hs2]; inversion Hs' as [|? ? Ho' Hs2']; subst.
    constructor; [cbn; lia|]. constructor; [exact I|]. apply IH, Hs2'.
  - destruct (is_opening c); apply IH; [constructor; [lia|exact Hs']|exact Hs'].
Qed.
Lemma insert_Forall {A} (P : nat * A -> Prop) e l : P e -> Forall P l -> Forall P (insert_key e l).
Proof.
  intros He. induction 1 as [|x l Hx H IH]; cbn [insert_key]; [repeat constructor; exact He|].
  destruct (Nat.leb (fst e) (fst x)); repeat constructor; assumption.
Qed.
Lemma sort_Forall {A} (P : nat * A -> Prop) l : Forall P l -> Forall P (sort_keys l).
Proof. induction 1; cbn [sort_keys]; [constructor|]. apply insert_Forall; assumption. Qed.

Lemma pretty_loop_padded st l : Forall entry_ok l -> forall i result,
  padded (firstn i st) result -> padded st (pretty_loop st l i result).
Proof.
  induction 1 as [|[b [e depth]] l He H IH]; intros i result Hr; cbn [pretty_loop].
  - rewrite <- (firstn_skipn i st) at 1. apply padded_app; [exact Hr|apply padded_refl].
  - destruct (Nat.leb i b) eqn:Eb; [|apply IH, Hr]. apply Nat.leb_le in Eb.
    destruct e as [e|].
    + cbn in He. cbn zeta.
      set (b' := if Nat.ltb (e - b + 2 * depth) 100 then e else b).
      assert (Hb' : (b <= b')%nat) by (unfold b'; destruct (Nat.ltb _ _); lia). apply IH.
      rewrite <- (slice_app i (S b') st) by lia. apply padded_app; [exact Hr|].
      apply padded_pre; [apply indent_blank|]. apply padded_post; [apply lf_blank|apply padded_refl].
    + apply IH. rewrite <- (slice_app i (S b) st) by lia. apply padded_app; [exact Hr|].
      destruct (Nat.eqb i b) eqn:Ei.
      * apply padded_pre; [apply indent_blank|]. apply padded_post; [apply lf_blank|apply padded_refl].
      * apply padded_pre; [apply indent_blank|].
        assert (Es : slice i (S b) st = slice i b st ++ slice b (S b) st).
        { assert (E1 := slice_app i b st Eb). assert (E2 := slice_app b (S b) st ltac:(lia)).
          assert (E3 := slice_app i (S b) st ltac:(lia)). rewrite <- E2, <- E1, <- app_assoc in E3.
          apply app_inv_head in E3. exact E3. }
        rewrite Es. apply padded_app; [apply padded_refl|]. apply padded_pre; [apply lf_blank|].
        apply padded_pre; [apply indent_blank|]. apply padded_post; [apply lf_blank|apply padded_refl].
Qed.
Lemma ast_pretty_padded st : padded st (ast_pretty st).
Proof.
  unfold ast_pretty. apply pretty_loop_padded; [apply sort_Forall, scan_ok; constructor|constructor].
Qed.

(** ** line numbers *)
Lemma find_lf s t : ~ In 10 s -> (t = [] \/ exists p, t = 10 :: p) ->
  find_sub [10] (s ++ t) = match t with [] => None | _ => Some (length s) end.
Proof.
  induction s as [|c s IH]; intros Hs Ht.
  - destruct Ht as [->|[p ->]]; reflexivity.
  - cbn [app]. assert (Hc : c <> 10) by (intros ->; apply Hs; left; reflexivity).
    change (find_sub [10] (c :: s ++ t)) with
      (if (10 =? c) && true then Some O else option_map S (find_sub [10] (s ++ t))).
    replace (10 =? c) with false by lia. cbn [andb].
    rewrite IH; [destruct t; reflexivity|intros H; apply Hs; right; exact H|exact Ht].
Qed.
Lemma skipn_mid pos (pre line post : text) : (length pre <= pos <= length pre + length line)%nat ->
  skipn pos (pre ++ line ++ post) = skipn (pos - length pre) line ++ post.
Proof.
  intros H. rewrite skipn_app. rewrite skipn_all2 by lia. cbn [app].
  rewrite skipn_app. replace (pos - length pre - length line)%nat with O by lia. reflexivity.
Qed.
Lemma skipn_In {A} (x : A) n l : In x (skipn n l) -> In x l.
Proof. intros H. rewrite <- (firstn_skipn n l). apply in_or_app; right; exact H. Qed.
Lemma eol_in_line sou pos pre line post : in_line sou pos pre line post ->
  eol_from sou pos = (length pre + length line)%nat.
Proof.
  intros (-> & _ & Hl & Hpost & Hpos). unfold eol_from. rewrite skipn_mid by lia.
  rewrite find_lf; [|intros H; apply Hl; eapply skipn_In; exact H|exact Hpost].
  destruct Hpost as [->|[p ->]].
  - rewrite !app_length. cbn. lia.
  - rewrite skipn_length. lia.
Qed.
Lemma firstn_in_line sou pos pre line post : in_line sou pos pre line post ->
  firstn (eol_from sou pos) sou = pre ++ line.
Proof.
  intros H. rewrite (eol_in_line _ _ _ _ _ H). destruct H as (-> & _).
  rewrite app_assoc, <- app_length. apply firstn_length_app.
Qed.
Lemma in_split_first_lf s : In 10 s -> exists a b, s = a ++ 10 :: b /\ ~ In 10 a.
Proof.
  induction s as [|c s IH]; [intros []|]. intros H. destruct (N.eq_dec c 10) as [->|Hc].
  - exists [], s. split; [reflexivity|intros []].
  - destruct H as [->|H]; [contradiction|]. destruct (IH H) as (a & b & -> & Ha).
    exists (c :: a), b. split; [reflexivity|]. intros [->|Hx]; [contradiction|exact (Ha Hx)].
Qed.
Lemma only_lf_lines pre line : only_lf (pre ++ line) -> (pre = [] \/ exists p, pre = p ++ [10]) ->
  ~ In 10 line ->
  exists ls, lines_of (pre ++ line) (ls ++ match line with [] => [] | _ => [line] end)
             /\ length ls = line_feeds pre.
Proof.
  intros Ho Hpre Hl.
  assert (Hnb : no_break line).
  { unfold no_break. apply Forall_forall. intros c Hc. destruct (py_isbreak c) eqn:E; [|reflexivity].
    unfold only_lf in Ho. rewrite Forall_forall in Ho. assert (c = 10) by (apply Ho; [apply in_or_app; right; exact Hc|exact E]).
    subst. contradiction. }
  assert (Gen : forall n pre, (length pre <= n)%nat -> only_lf pre -> (pre = [] \/ exists p, pre = p ++ [10]) ->
    exists ls, lines_of (pre ++ line) (ls ++ match line with [] => [] | _ => [line] end)
             /\ length ls = line_feeds pre).
  { clear Ho Hpre pre. induction n as [|n IH]; intros pre Hn Ho Hpre.
    - destruct pre; [|cbn in Hn; lia]. exists []. split; [|reflexivity]. cbn [app].
      destruct line as [|c line]; constructor; [discriminate|exact Hnb].
    - destruct pre as [|c pre]; [apply (IH []); [cbn; lia|constructor|left; reflexivity]|].
      assert (Hex : exists a b, c :: pre = a ++ 10 :: b /\ ~ In 10 a).
      { destruct Hpre as [Hpre|[p Hpre]]; [discriminate|]. apply in_split_first_lf.
        rewrite Hpre. apply in_or_app; right; left; reflexivity. }
      destruct Hex as (a & b & E & Ha). rewrite E in *. clear E c pre.
      assert (Hob : only_lf b) by (apply Forall_app in Ho as [_ Ho]; inversion Ho; assumption).
      assert (Hb : b = [] \/ exists p, b = p ++ [10]).
      { destruct Hpre as [Hpre|[p Hpre]]; [destruct a; discriminate|].
        destruct b as [|d b] using rev_ind; [left; reflexivity|].
        right. exists b. f_equal. change (10 :: b ++ [d]) with ((10 :: b) ++ [d]) in Hpre.
        rewrite app_assoc in Hpre. apply app_inj_tail in Hpre as [_ ->]. reflexivity. }
      destruct (IH b) as (ls & H1 & H2); [rewrite app_length in Hn; cbn in Hn; lia|exact Hob|exact Hb|].
      exists (a :: ls). split.
      + rewrite <- app_assoc. cbn [app]. apply (lo_one a 10); [|reflexivity|discriminate|exact H1].
        apply Forall_app in Ho as [Ho _]. apply Forall_forall. intros c Hc.
        destruct (py_isbreak c) eqn:E; [|reflexivity]. unfold only_lf in Ho. rewrite Forall_forall in Ho.
        rewrite (Ho c Hc E) in Hc. contradiction.
      + cbn [length]. rewrite H2. unfold line_feeds. rewrite filter_app, app_length. cbn [filter N.eqb Pos.eqb length].
        replace (filter (N.eqb 10) a) with (@nil N); [reflexivity|].
        clear -Ha. induction a as [|c a IH]; [reflexivity|]. cbn [filter].
        destruct (10 =? c) eqn:E; [apply N.eqb_eq in E; subst; exfalso; apply Ha; left; reflexivity|].
        apply IH. intros H; apply Ha; right; exact H. }
  apply (Gen (length pre)); [lia| |exact Hpre]. apply Forall_app in Ho. apply Ho.
Qed.

Lemma loc_line_general sou pos pre line post :
  in_line sou pos pre line post -> only_lf sou ->
  loc_line sou pos = (line_feeds pre + match line with [] => 0 | _ => 1 end)%nat /\
  (line <> [] -> loc_text sou pos = lstrip line).
Proof.
  intros H Ho. assert (E := firstn_in_line _ _ _ _ _ H). destruct H as (-> & Hpre & Hl & _).
  unfold loc_line, loc_text. rewrite E.
  assert (Ho' : only_lf (pre ++ line)) by (rewrite app_assoc in Ho; apply Forall_app in Ho; apply Ho).
  destruct (only_lf_lines pre line Ho' Hpre Hl) as (ls & H1 & H2).
  rewrite (lines_splitlines _ _ H1). split.
  - rewrite app_length, H2. destruct line; reflexivity.
  - intros Hne. destruct line as [|c line]; [contradiction|].
    destruct (ls ++ [c :: line]) eqn:El; [destruct ls; discriminate|]. rewrite <- El, last_last. reflexivity.
Qed.
Lemma loc_line_ok sou pos pre line post :
  in_line sou pos pre line post -> only_lf sou -> line <> [] ->
  loc_line sou pos = S (line_feeds pre).
Proof.
  intros H Ho Hne. destruct (loc_line_general _ _ _ _ _ H Ho) as [-> _]. destruct line; [contradiction|]. lia.
Qed.
Lemma lstrip_suffix l : exists w, l = w ++ lstrip l.
Proof.
  induction l as [|c l (w & IH)]; [exists []; reflexivity|]. cbn [lstrip]. destruct (py_isspace c).
  - exists (c :: w). cbn [app]. rewrite <- IH. reflexivity.
  - exists []. reflexivity.
Qed.
(** the caret stands under the character at [pos] unless it was stripped *)
Lemma loc_caret_ok sou pos pre line post c :
  in_line sou pos pre line post -> only_lf sou ->
  nth_error line (pos - length pre) = Some c ->
  (length line - length (lstrip line) <= pos - length pre)%nat ->
  (0 <= loc_caret sou pos)%Z /\
  nth_error (loc_text sou pos) (Z.to_nat (loc_caret sou pos)) = Some c.
Proof.
  intros H Ho Hc Hp.
  assert (Hne : line <> []) by (intros ->; destruct (pos - length pre)%nat; discriminate).
  destruct (loc_line_general _ _ _ _ _ H Ho) as [_ Ht]. specialize (Ht Hne).
  unfold loc_caret. rewrite Ht, (eol_in_line _ _ _ _ _ H).
  destruct H as (_ & _ & _ & _ & Hpos).
  destruct (lstrip_suffix line) as [w Hw].
  assert (Hlen : length line = (length w + length (lstrip line))%nat) by (rewrite Hw at 1; apply app_length).
  split; [lia|].
  replace (Z.to_nat _) with (pos - length pre - length w)%nat by lia.
  rewrite Hw in Hc. rewrite nth_error_app2 in Hc by lia. exact Hc.
Qed.
Lemma loc_line_empty : exists sou pos pre line post,
  in_line sou pos pre line post /\ only_lf sou /\ loc_line sou pos <> S (line_feeds pre).
Proof.
  exists [97; 10; 10; 98], 2%nat, [97; 10], [], [10; 98]. split; [|split].
  - split; [reflexivity|]. split; [right; exists [97]; reflexivity|]. split; [intros []|].
    split; [right; exists [98]; reflexivity|cbn; lia].
  - repeat constructor; discriminate.
  - vm_compute. discriminate.
Qed.
