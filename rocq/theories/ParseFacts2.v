(** * Whole files: header, text, imports *)
From Coq Require Import List NArith ZArith Bool Lia ZifyBool ZifyNat ZifyN.
From Verif Require Import PyStr PyStrFacts Ast Lex LexSpec LexFacts Parse ParseSpec ParseFacts EnvFacts.
Import ListNotations.
Open Scope N_scope.
Open Scope monad_scope.

Lemma coding_at_len t b : coding_at t = Some b -> (7 <= length t)%nat.
Proof.
  unfold coding_at. destruct (startswith (lit "coding:") (lower t)) eqn:E1; [|destruct (startswith (lit "coding=") (lower t)) eqn:E2; [|discriminate]]; intros _.
  - apply startswith_length in E1. unfold lower in E1. rewrite map_length in E1. exact E1.
  - apply startswith_length in E2. unfold lower in E2. rewrite map_length in E2. exact E2.
Qed.
Lemma coding_search_len t : forall b, coding_search t = Some b -> (7 <= length t)%nat.
Proof.
  induction t as [|c r IH]; intros b E; cbn [coding_search] in E; [discriminate|].
  destruct (coding_at (c :: r)) eqn:D; [eapply coding_at_len; exact D|]. apply IH in E. cbn. lia.
Qed.

Section File.
Variables (key src : text).
Variable endless : Prop.
Variable registry : yst -> text -> text -> Prop.
Variable Inv : yst -> Prop.
Variable ext : yst -> yst -> Prop.
Hypothesis ext_refl : forall s, ext s s.
Hypothesis ext_trans : forall a b c, ext a b -> ext b c -> ext a c.
Hypothesis registry_ext : forall s s' f t, ext s s' -> registry s f t -> registry s' f t.
Hypothesis reg0 : forall s, Inv s -> registry s key src.
Hypothesis shrink_ok : forall m s, Inv s -> Inv (set_shrink m s) /\ ext s (set_shrink m s).
Variable cx : pctx.
Variable imp : text -> M (list node).
Notation at_ := (at_ key src).
Notation piece := (piece key src).
Notation len := (length src).
Notation okm := (okm endless Inv ext).
Notation good := (good registry).
Notation loc := (loc registry).
Hypothesis IN : (exists i, (i <= len)%nat /\ sstarts ps_IMPORT (at_ i) = true) -> name_import_ok endless registry Inv ext cx imp.
Hypothesis IO : named_here key src \/ other_imports_ok endless registry Inv ext cx imp.

Lemma loc_prefix s a k : loc s a -> loc s (Src (firstn k (s_txt a)) (s_file a) (s_pos a)).
Proof.
  unfold loc, located. cbn. destruct (s_file a); [|trivial]. intros (P & t & x & y & R & E & L). split; [exact P|].
  exists t, x, (skipn k (s_txt a) ++ y). split; [exact R|]. split; [|exact L]. rewrite E. f_equal.
  rewrite app_assoc, firstn_skipn. reflexivity.
Qed.
Lemma loc_suffix s a k : loc s a -> (k <= length (s_txt a))%nat ->
  loc s (Src (skipn k (s_txt a)) (s_file a) (s_pos a + Z.of_nat k)).
Proof.
  unfold loc, located. cbn. destruct (s_file a); [|trivial]. intros (P & t & x & y & R & E & L) K. split; [lia|].
  exists t, (x ++ firstn k (s_txt a)), y. split; [exact R|]. split.
  - rewrite E, <- app_assoc, (app_assoc (firstn _ _)), firstn_skipn. reflexivity.
  - rewrite app_length, firstn_length. lia.
Qed.
Lemma header_encoding_good s a b : loc s a -> coding_search (s_txt a) = Some b -> Forall (good s) (header_encoding a).
Proof.
  intros L C. apply coding_search_len in C. unfold header_encoding.
  set (i := match find_sub (lit "yupp.") (s_txt a) with Some i => Z.of_nat i | None => (-1)%Z end).
  assert (K : (0 <= i + 5 <= Z.of_nat (length (s_txt a)))%Z).
  { unfold i. destruct (find_sub (lit "yupp.") (s_txt a)) as [j|] eqn:F; [|lia].
    apply find_sub_some in F. destruct F as (Fl & F & _). apply (f_equal (@length _)) in F. rewrite !app_length, firstn_length in F. change (length (lit "yupp.")) with 5%nat in F. lia. }
  clearbody i. constructor; [apply good_remark, loc_prefix, L|]. constructor; [|constructor]. apply good_remark.
  unfold py_from, norm_index. destruct (Z.ltb_spec (i + 5) 0) as [X|X]; [lia|]. rewrite Nat.min_l by lia.
  replace (s_pos a + (i + 5))%Z with (s_pos a + Z.of_nat (Z.to_nat (i + 5)))%Z by lia. apply loc_suffix; [exact L|lia].
Qed.
Lemma header_loop_ok s (Is : Inv s) ln : forall header i rest h sh, (i <= len)%nat -> Forall (good s) header ->
  header_loop ln header (at_ i) = Some (rest, h, sh) -> exists j, (i <= j <= len)%nat /\ rest = at_ j /\ Forall (good s) h.
Proof.
  assert (R0 : registry s key src) by apply reg0, Is.
  induction ln as [|ln IH]; intros header i rest h sh H F E; [discriminate|]. cbn [header_loop] in E. cbv zeta in E.
  destruct (space_at key src i H) as (j & J & Es). rewrite Es in E.
  destruct (ps_remark_python_at key src j ltac:(lia)) as [Er|(j2 & J2 & Er)]; rewrite Er in E; [discriminate|].
  assert (Lp : loc s (piece j j2)) by (eapply loc_piece; first [eassumption|lia]).
  destruct (coding_search (s_txt (piece j j2))) as [b|] eqn:C.
  - assert (Fe := header_encoding_good s _ b Lp C). destruct b; injection E as <- <- <-; exists j2; (split; [lia|]); (split; [reflexivity|]); [|exact F].
    apply Forall_app. split; assumption.
  - destruct (eol_at key src j2) as [Ee|(L2 & Ee)]; rewrite Ee in E.
    + apply IH in E; [|lia|]. 
      * destruct E as (j3 & J3 & X). exists j3. split; [lia|exact X].
      * apply Forall_app. split; [exact F|]. constructor; [apply good_remark, Lp|]. constructor; [apply good_none|constructor].
    + apply IH in E; [|lia|].
      * destruct E as (j3 & J3 & X). exists j3. split; [lia|exact X].
      * apply Forall_app. split; [exact F|]. constructor; [apply good_remark, Lp|]. constructor; [|constructor].
        apply good_source; eapply loc_piece; first [eassumption|lia].
Qed.
Lemma okm_modify f s : Inv (f s) -> ext s (f s) -> okm (modify f) s (fun _ _ => True).
Proof. intros A B. split; [exact A|]. split; [exact B|exact I]. Qed.
Lemma header_ok s : Inv s -> okm (ps_header_python (at_ 0)) s (fun r s' => exists j, (j <= len)%nat /\ fst r = at_ j /\
  match snd r with Some h => Forall (good s') h | None => True end).
Proof.
  intros Is. unfold ps_header_python. destruct (space_at key src 0 ltac:(lia)) as (j & J & ->).
  assert (K : exists j2 eol, ps_eol (at_ j) = (at_ j2, eol) /\ (j2 <= len)%nat).
  { destruct (eol_at key src j) as [->|(L & ->)]; eexists; eexists; (split; [reflexivity|lia]). }
  destruct K as (j2 & eol & -> & J2).
  destruct (header_loop _ [] (at_ j2)) as [[[rest h] sh]|] eqn:E.
  - eapply header_loop_ok in E; [|exact Is|exact J2|constructor]. destruct E as (j3 & J3 & -> & F).
    destruct (shrink_ok sh s Is) as [A B]. eapply okm_bind; [exact ext_trans|apply okm_modify; assumption|].
    intros u s1 I1 E1 _. apply okm_ret; [exact ext_refl|exact I1|]. exists j3. cbn. split; [lia|]. split; [reflexivity|].
    eapply goods_ext; [exact registry_ext|exact E1|exact F].
  - apply okm_ret; [exact ext_refl|exact Is|]. exists O. cbn. split; [lia|]. split; [reflexivity|exact I].
Qed.

Lemma yuparse_with_ok s d : Inv s -> dict_get key (y_source s) = Some (d, src) ->
  okm (yuparse_with cx imp key) s (fun l s' => Forall (good s') l).
Proof.
  intros Is Dk. unfold yuparse_with. unfold bind at 1. unfold get_st. unfold ParseFacts.okm. rewrite Dk.
  change (ParseFacts.okm endless Inv ext (match src with [] => ret [] | _ :: _ =>
     let* (sou, header) := (if teqb (c_main cx) key && c_python cx then ps_header_python (Src src (Some key) 0) else ret (Src src (Some key) 0, None)) in
      match s_txt sou with
      | [] => throw (Exn UnboundLocalError "local variable 'ast' referenced before assignment")
      | _ =>
          let* (_, g) := drive_text (knot cx imp (S (length (s_txt sou)))) stop_eof sou in
          ret (match header, tg_ast g with
               | Some h, _ :: _ => h ++ tg_ast g
               | _, a => a
               end)
      end end) s (fun l s' => Forall (good s') l)).
  destruct (list_eq_dec N.eq_dec src []) as [En|Nn].
  { match goal with |- ParseFacts.okm _ _ _ ?m _ _ => replace m with (ret (A := list node) []) end.
    - apply okm_ret; [exact ext_refl|exact Is|constructor].
    - clear -En. destruct src; [reflexivity|discriminate]. }
  match goal with |- ParseFacts.okm _ _ _ (match src with [] => _ | _ :: _ => ?m end) _ _ => cut (okm m s (fun l s' => Forall (good s') l)) end.
  { destruct src; [contradiction|trivial]. }
  change (Src src (Some key) 0) with (at_ 0).
  eapply okm_bind with (Q := fun r s' => exists j, (j <= len)%nat /\ fst r = at_ j /\ match snd r with Some h => Forall (good s') h | None => True end); [exact ext_trans| |].
  - destruct (teqb (c_main cx) key && c_python cx); [apply header_ok, Is|]. apply okm_ret; [exact ext_refl|exact Is|].
    exists O. cbn. split; [lia|]. split; [reflexivity|exact I].
  - intros [sou header] s1 I1 E1 (j & J & Es & F). cbn in Es, F. subst sou.
    match goal with |- ParseFacts.okm _ _ _ (match s_txt (at_ j) with [] => _ | _ :: _ => ?m end) _ _ => cut (okm m s1 (fun l s' => Forall (good s') l)) end.
    { destruct (s_txt (at_ j)); [intros _; exact I|trivial]. }
    rewrite at_len. eapply okm_bind; [exact ext_trans|eapply whole_text_ok; eassumption|].
    intros [r g] s2 I2 E2 G. cbn in G. apply okm_ret; [exact ext_refl|exact I2|].
    destruct header as [h|]; [|exact G]. destruct (tg_ast g) as [|x l]; [constructor|]. apply Forall_app. split; [|exact G].
    eapply goods_ext; [exact registry_ext|exact E2|exact F].
Qed.
End File.
