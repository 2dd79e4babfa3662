(** Writing files, passes, cache, settings, interactive loop (proofs only). *)
From Coq Require Import List NArith ZArith Bool Lia.
From Coq Require Import ZifyBool ZifyNat ZifyN.
From Verif Require Import PyStr Ast Lex Shell PyStrFacts ShellSpec.
Import ListNotations.
Open Scope N_scope.

Lemma fs_set_eq x v s : fs_set x v s x = v.
Proof. unfold fs_set. rewrite teqb_refl. reflexivity. Qed.
Lemma fs_set_neq x y v s : y <> x -> fs_set x v s y = s y.
Proof. intros H. unfold fs_set. rewrite (proj2 (teqb_neq y x) H). reflexivity. Qed.

Definition touches (a : act) (x : text) : Prop :=
  match a with
  | AChmod fn _ | ARemove fn | AOpen fn | AWrite fn _ => x = fn
  | ARename a b => x = a \/ x = b
  end.
Lemma apply_keeps now a s s' x : ~ touches a x -> apply_act now a s = Some s' -> s' x = s x.
Proof.
  destruct a as [fn ro|fn|a b|fn|fn t]; cbn [touches apply_act]; intros Hx.
  - destruct (s fn); [|discriminate]. intros [= <-]. apply fs_set_neq, Hx.
  - destruct (s fn); [|discriminate]. intros [= <-]. apply fs_set_neq, Hx.
  - destruct (s a); [|discriminate]. intros [= <-]. rewrite !fs_set_neq; tauto.
  - destruct (s fn) as [f|]; [destruct (f_ro f); [discriminate|]|]; intros [= <-]; apply fs_set_neq, Hx.
  - destruct (s fn); [|discriminate]. intros [= <-]. apply fs_set_neq, Hx.
Qed.
Lemma partial_keeps now a k s x : ~ touches a x -> partial_act now a k s x = s x.
Proof.
  intros Hx. destruct a as [fn ro|fn|a b|fn|fn t]; try reflexivity. unfold partial_act.
  destruct (apply_act now (AWrite fn (firstn k t)) s) eqn:E; [|reflexivity].
  eapply apply_keeps; [|exact E]. exact Hx.
Qed.
Lemma run_keeps now acts x : Forall (fun a => ~ touches a x) acts -> forall fates s,
  fst (run_acts now acts fates s) x = s x.
Proof.
  induction 1 as [|a acts Ha H IH]; intros fates s; [reflexivity|]. cbn [run_acts].
  destruct (hd Done fates).
  - destruct (apply_act now a s) eqn:E; [|reflexivity]. rewrite IH. eapply apply_keeps; eauto.
  - apply partial_keeps, Ha.
  - apply partial_keeps, Ha.
Qed.
Lemma run_app now A B : forall fates s,
  run_acts now (A ++ B) fates s =
  match run_acts now A fates s with
  | (s1, Completed) => run_acts now B (skipn (length A) fates) s1
  | r => r
  end.
Proof.
  induction A as [|a A IH]; intros fates s; [reflexivity|]. cbn [app run_acts length].
  destruct (hd Done fates); [|reflexivity|reflexivity].
  destruct (apply_act now a s); [|reflexivity]. rewrite IH. destruct fates; [rewrite skipn_nil|]; reflexivity.
Qed.
Lemma suffix_neq (fn a b : text) : a <> b -> fn ++ a <> fn ++ b.
Proof. intros H E. apply app_inv_head in E. contradiction. Qed.
Lemma suffix_neq0 (fn a : text) : a <> [] -> fn ++ a <> fn.
Proof. intros H. rewrite <- (app_nil_r fn) at 2. apply suffix_neq, H. Qed.

(** the calls after the backup *)
Definition later_acts (ro : bool) (r : ppres) (fn : text) : list act :=
  save_acts fn (p_plain r) ++ (if ro then [AChmod fn true] else [])
  ++ match p_json r with Some j => save_acts (fn ++ lit ".json") j | None => [] end.
Lemma stream_ok_acts ro r fn_o s : p_ok r = true ->
  stream_acts ro r fn_o s = backup_acts s (stream_fn r fn_o) ++ later_acts ro r (stream_fn r fn_o).
Proof. intros H. unfold stream_acts, later_acts. rewrite H. reflexivity. Qed.
Lemma later_keeps ro r fn x : x <> fn -> x <> fn ++ lit ".json" ->
  Forall (fun a => ~ touches a x) (later_acts ro r fn).
Proof.
  intros H1 H2. unfold later_acts, save_acts. apply Forall_app. split; [repeat constructor; exact H1|].
  apply Forall_app. split; [destruct ro; repeat constructor; exact H1|].
  destruct (p_json r); repeat constructor; exact H2.
Qed.
Lemma backup_keeps s fn x : x <> fn -> x <> fn ++ e_bak ->
  Forall (fun a => ~ touches a x) (backup_acts s fn).
Proof.
  intros H1 H2. unfold backup_acts. destruct (isfile s fn); [|constructor].
  apply Forall_app. split; [destruct (isfile s _); repeat constructor; exact H2|].
  repeat constructor. cbn. tauto.
Qed.
Lemma bak_json fn : fn ++ e_bak <> fn ++ lit ".json".
Proof. apply suffix_neq. discriminate. Qed.
Lemma bak_neq fn : fn ++ e_bak <> fn.
Proof. apply suffix_neq0. discriminate. Qed.
Lemma json_neq fn : fn ++ lit ".json" <> fn.
Proof. apply suffix_neq0. discriminate. Qed.

(** running the backup: the old content is under the name or under .bak *)
Lemma backup_run now s fn f fates : s fn = Some f ->
  let '(s1, st) := run_acts now (backup_acts s fn) fates s in
  match st with
  | Completed => s1 fn = None /\ s1 (fn ++ e_bak) = Some f
  | _ => s1 fn = Some f
  end.
Proof.
  intros Hf. unfold backup_acts, isfile. rewrite Hf.
  assert (Hren : forall fates s1, s1 fn = Some f ->
    let '(s2, st) := run_acts now [ARename fn (fn ++ e_bak)] fates s1 in
    match st with Completed => s2 fn = None /\ s2 (fn ++ e_bak) = Some f | _ => s2 fn = Some f end).
  { intros fts s1 H1. cbn [run_acts]. destruct (hd Done fts); [|exact H1|exact H1].
    cbn [apply_act]. rewrite H1. cbn [run_acts]. split; [|apply fs_set_eq].
    rewrite fs_set_neq by (apply not_eq_sym, bak_neq). apply fs_set_eq. }
  destruct (s (fn ++ e_bak)) as [b|] eqn:Eb; [|exact (Hren fates s Hf)].
  rewrite run_app.
  assert (Hk := run_keeps now [AChmod (fn ++ e_bak) false; ARemove (fn ++ e_bak)] fn).
  specialize (Hk ltac:(repeat constructor; apply not_eq_sym, bak_neq) fates s).
  destruct (run_acts now [AChmod (fn ++ e_bak) false; ARemove (fn ++ e_bak)] fates s) as [s1 st] eqn:E1.
  cbn [fst] in Hk. rewrite Hf in Hk. destruct st; [|exact Hk|exact Hk].
  exact (Hren (skipn 2 fates) s1 Hk).
Qed.

Lemma crash_safe now ro r fn_o fates s d :
  p_ok r = true -> holds s (stream_fn r fn_o) d ->
  let s' := snd (fst (pp_stream now ro r fn_o fates s)) in
  holds s' (stream_fn r fn_o) d \/ holds s' (stream_fn r fn_o ++ lit ".bak") d.
Proof.
  intros Hok (f & Hf & Hd). unfold pp_stream. set (fn := stream_fn r fn_o) in *.
  rewrite (stream_ok_acts _ _ _ _ Hok). fold fn. rewrite run_app.
  assert (Hb := backup_run now s fn f fates Hf).
  destruct (run_acts now (backup_acts s fn) fates s) as [s1 st] eqn:E1.
  destruct st.
  - destruct Hb as [_ Hb].
    assert (Hk := run_keeps now (later_acts ro r fn) (fn ++ e_bak)
      (later_keeps ro r fn _ (bak_neq fn) (bak_json fn)) (skipn (length (backup_acts s fn)) fates) s1).
    destruct (run_acts now (later_acts ro r fn) _ s1) as [s2 st2]. cbn [fst snd] in *.
    right. exists f. change (lit ".bak") with e_bak. rewrite Hk. split; assumption.
  - left. exists f. split; assumption.
  - left. exists f. split; assumption.
Qed.

Lemma others_kept now ro r fn_o fates s x :
  x <> stream_fn r fn_o -> x <> stream_fn r fn_o ++ lit ".bak" -> x <> stream_fn r fn_o ++ lit ".json" ->
  snd (fst (pp_stream now ro r fn_o fates s)) x = s x.
Proof.
  intros H1 H2 H3. unfold pp_stream.
  assert (Hk : Forall (fun a => ~ touches a x) (stream_acts ro r fn_o s)).
  { destruct (p_ok r) eqn:Hok.
    - rewrite stream_ok_acts by exact Hok. apply Forall_app. split; [apply backup_keeps|apply later_keeps]; assumption.
    - unfold stream_acts. rewrite Hok. destruct (p_plain r); repeat constructor; exact H1. }
  assert (Hr := run_keeps now _ x Hk fates s).
  destruct (run_acts now (stream_acts ro r fn_o s) fates s) as [s' st]. exact Hr.
Qed.

(** writing a file that does not exist *)
Lemma save_run now fn t fates s : s fn = None ->
  let '(s1, st) := run_acts now (save_acts fn t) fates s in
  st = Completed -> exists f, s1 fn = Some f /\ f_data f = t /\ f_mtime f = now.
Proof.
  intros Hn. unfold save_acts. cbn [run_acts]. destruct (hd Done fates); try discriminate.
  cbn [apply_act]. rewrite Hn. destruct (hd Done (tl fates)); try discriminate.
  rewrite fs_set_eq. cbn [run_acts]. intros _. eexists. rewrite fs_set_eq. repeat split.
Qed.
Lemma backup_done now s fn fates : 
  let '(s1, st) := run_acts now (backup_acts s fn) fates s in
  st = Completed -> s1 fn = None /\ s1 (fn ++ e_bak) = (if isfile s fn then s fn else s (fn ++ e_bak)).
Proof.
  destruct (isfile s fn) eqn:Ei.
  - unfold isfile in Ei. destruct (s fn) as [f|] eqn:Ef; [|discriminate].
    assert (H := backup_run now s fn f fates Ef).
    destruct (run_acts now (backup_acts s fn) fates s) as [s1 st]. intros ->. exact H.
  - unfold backup_acts. rewrite Ei. cbn. intros _. unfold isfile in Ei. destruct (s fn); [discriminate|]. split; reflexivity.
Qed.
Lemma later_rest ro r fn x :
  x = fn ++ e_bak -> Forall (fun a => ~ touches a x) (later_acts ro r fn).
Proof. intros ->. apply later_keeps; [apply bak_neq|apply bak_json]. Qed.
Lemma chmod_data now fn b fates s f : s fn = Some f ->
  let '(s1, st) := run_acts now [AChmod fn b] fates s in
  exists g, s1 fn = Some g /\ f_data g = f_data f /\ f_mtime g = f_mtime f.
Proof.
  intros Hf. cbn [run_acts]. destruct (hd Done fates); cbn [partial_act].
  - cbn [apply_act]. rewrite Hf. cbn [run_acts]. eexists. rewrite fs_set_eq. repeat split.
  - exists f. auto.
  - exists f. auto.
Qed.
(** once the text itself has been saved, the output stays *)
Lemma later_output now ro r fn fates s :
  s fn = None ->
  let '(s1, st) := run_acts now (later_acts ro r fn) fates s in
  (st = Completed \/ (fates = [] /\ st = Raised)) ->
  exists f, s1 fn = Some f /\ f_data f = p_plain r /\ f_mtime f = now.
Proof.
  intros Hn. unfold later_acts. rewrite run_app.
  assert (Hs := save_run now fn (p_plain r) fates s Hn).
  assert (Hs0 : fates = [] -> snd (run_acts now (save_acts fn (p_plain r)) fates s) = Completed).
  { intros ->. unfold save_acts. cbn. rewrite Hn. cbn. rewrite fs_set_eq. reflexivity. }
  destruct (run_acts now (save_acts fn (p_plain r)) fates s) as [s1 st1] eqn:E1.
  destruct st1; [|intros [H|[H _]]; [discriminate|apply Hs0 in H; discriminate]
                 |intros [H|[H _]]; [discriminate|apply Hs0 in H; discriminate]].
  destruct (Hs eq_refl) as (f & Hf & Hd & Hm). clear Hs Hs0.
  set (rest := (if ro then [AChmod fn true] else []) ++ _). set (fts := skipn _ fates).
  assert (G : exists g, fst (run_acts now rest fts s1) fn = Some g /\ f_data g = f_data f /\ f_mtime g = f_mtime f).
  { unfold rest. rewrite run_app.
    assert (Hc : exists g, fst (run_acts now (if ro then [AChmod fn true] else []) fts s1) fn = Some g
        /\ f_data g = f_data f /\ f_mtime g = f_mtime f).
    { destruct ro; [|exists f; auto]. assert (H := chmod_data now fn true fts s1 f Hf).
      destruct (run_acts now [AChmod fn true] fts s1). exact H. }
    destruct (run_acts now (if ro then [AChmod fn true] else []) fts s1) as [s2 st2]. cbn [fst] in Hc.
    destruct st2; [|exact Hc|exact Hc].
    rewrite run_keeps; [exact Hc|]. destruct (p_json r); repeat constructor; cbn; apply not_eq_sym, json_neq. }
  destruct (run_acts now rest fts s1) as [s2 st2]. intros _. cbn [fst] in G.
  destruct G as (g & Hg & Hgd & Hgm). exists g. repeat split; congruence.
Qed.
Lemma backup_completes now s fn : snd (run_acts now (backup_acts s fn) [] s) = Completed.
Proof.
  unfold backup_acts, isfile. destruct (s fn) as [f|] eqn:Ef; [|reflexivity].
  destruct (s (fn ++ e_bak)) as [b|] eqn:Eb; cbn [app run_acts hd tl apply_act].
  - rewrite Eb. rewrite fs_set_eq. rewrite !fs_set_neq by (apply not_eq_sym, bak_neq). rewrite Ef. reflexivity.
  - rewrite Ef. reflexivity.
Qed.
Lemma stream_completed now ro r fn_o fates s :
  p_ok r = true ->
  let '(_, s', st) := pp_stream now ro r fn_o fates s in
  (st = Completed \/ (fates = [] /\ st = Raised)) ->
  (exists f, s' (stream_fn r fn_o) = Some f /\ f_data f = p_plain r /\ f_mtime f = now) /\
  s' (stream_fn r fn_o ++ lit ".bak") =
    (if isfile s (stream_fn r fn_o) then s (stream_fn r fn_o) else s (stream_fn r fn_o ++ lit ".bak")).
Proof.
  intros Hok. unfold pp_stream. set (fn := stream_fn r fn_o).
  rewrite (stream_ok_acts _ _ _ _ Hok). fold fn. rewrite run_app.
  assert (Hb := backup_done now s fn fates).
  assert (Hb0 : fates = [] -> snd (run_acts now (backup_acts s fn) fates s) = Completed).
  { intros ->. apply backup_completes. }
  destruct (run_acts now (backup_acts s fn) fates s) as [s1 st1] eqn:E1.
  destruct st1; [|intros [H|[H _]]; [discriminate|apply Hb0 in H; discriminate]
                 |intros [H|[H _]]; [discriminate|apply Hb0 in H; discriminate]].
  destruct (Hb eq_refl) as [H1 H2]. clear Hb Hb0.
  assert (Ho := later_output now ro r fn (skipn (length (backup_acts s fn)) fates) s1 H1).
  assert (Hk := run_keeps now (later_acts ro r fn) (fn ++ e_bak)
      (later_keeps ro r fn _ (bak_neq fn) (bak_json fn)) (skipn (length (backup_acts s fn)) fates) s1).
  destruct (run_acts now (later_acts ro r fn) _ s1) as [s2 st2]. cbn [fst] in Hk.
  intros Hst. split.
  - apply Ho. destruct Hst as [Hst|[Hf Hst]]; [left; exact Hst|right; split; [|exact Hst]].
    rewrite Hf. apply skipn_nil.
  - change (lit ".bak") with e_bak. rewrite Hk, H2. reflexivity.
Qed.
Lemma stream_completes now ro r fn_o s :
  p_ok r = true -> p_json r = None -> snd (pp_stream now ro r fn_o [] s) = Completed.
Proof.
  intros Hok Hj. unfold pp_stream. set (fn := stream_fn r fn_o).
  rewrite (stream_ok_acts _ _ _ _ Hok). fold fn. rewrite run_app. rewrite skipn_nil.
  assert (Hb := backup_done now s fn []).
  assert (Hb0 : snd (run_acts now (backup_acts s fn) [] s) = Completed).
  { apply backup_completes. }
  destruct (run_acts now (backup_acts s fn) [] s) as [s1 st1]. cbn [snd] in Hb0. subst st1.
  destruct (Hb eq_refl) as [H1 _]. unfold later_acts. rewrite Hj, app_nil_r. unfold save_acts.
  cbn [app run_acts hd tl apply_act]. rewrite H1. rewrite fs_set_eq. destruct ro; cbn [run_acts hd tl apply_act].
  - rewrite fs_set_eq. reflexivity.
  - reflexivity.
Qed.

(** ** C35 *)
Lemma ast_neq fn_o : snd (splitext fn_o) <> lit ".ast" -> fst (splitext fn_o) ++ e_ast <> fn_o.
Proof.
  intros H E. rewrite <- (splitext_app fn_o) in E at 2. apply app_inv_head in E. apply H. symmetry. exact E.
Qed.
Lemma ast_bak_neq fn_o : fst (splitext fn_o) ++ e_ast <> fn_o ++ lit ".bak".
Proof.
  intros E. assert (E' : fn_o ++ lit ".bak" = fst (splitext fn_o) ++ snd (splitext fn_o) ++ lit ".bak")
    by (rewrite app_assoc, splitext_app; reflexivity).
  rewrite E' in E. clear E'.
  assert (Hl := f_equal (@length N) E).
  destruct (snd (splitext fn_o)) as [|c e] eqn:Es.
  - cbn [app] in E. apply app_inv_head in E. discriminate.
  - rewrite !app_length in Hl. cbn [app length] in Hl.
    change (length e_ast) with 4%nat in Hl. change (length (lit ".bak")) with 4%nat in Hl. lia.
Qed.
Lemma failed_keeps now ro r fn_o fates s x :
  p_ok r = false -> x <> fst (splitext fn_o) ++ lit ".ast" ->
  snd (fst (pp_stream now ro r fn_o fates s)) x = s x.
Proof.
  intros Hok Hx. unfold pp_stream.
  assert (Hk : Forall (fun a => ~ touches a x) (stream_acts ro r fn_o s)).
  { unfold stream_acts, stream_fn. rewrite Hok. destruct (p_plain r); repeat constructor; exact Hx. }
  assert (Hr := run_keeps now _ x Hk fates s).
  destruct (run_acts now (stream_acts ro r fn_o s) fates s) as [s' st]. exact Hr.
Qed.
Lemma failed_output now ro r fn_o fates s :
  p_ok r = false -> snd (splitext fn_o) <> lit ".ast" ->
  let s' := snd (fst (pp_stream now ro r fn_o fates s)) in
  s' fn_o = s fn_o /\ s' (fn_o ++ lit ".bak") = s (fn_o ++ lit ".bak").
Proof.
  intros Hok Hx s'. unfold s'. split; apply failed_keeps; try exact Hok.
  - intros E. apply (ast_neq fn_o Hx). symmetry. exact E.
  - intros E. apply (ast_bak_neq fn_o). symmetry. exact E.
Qed.
