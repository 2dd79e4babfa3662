(** * Declarations of a header (proofs only) *)
From Coq Require Import List NArith ZArith Bool String Lia ZifyBool ZifyNat ZifyN.
From Verif Require FormatSpec FormatFacts FormatCases TextSpec.
From Verif Require Import PyStr PyStrFacts Ast Lex LexSpec ProtectSpec LexFacts LexFacts2 LexCases Parse ParseSpec Final FinalSpec Shell ShellSpec Eval Builtin EnvSpec EvalSpec TrimSpec Pp PpSpec ExprSpec ExprShow DocSpec CoreSpec RunSpec RunCases StdSpec StdCases2 GuardSpec GuardCases.
Import ListNotations.
Open Scope list_scope.
Open Scope N_scope.

Section Use.
Variables (ec : ectx) (later before : defs).
Notation g := (later ++ light_defs ++ before).
Lemma name_line w fb N : gives (values_in [] g) (lit "h-name") (NRaw N) -> solid N -> page ec g (IndStr []) fb (runs true [] (parts_of w)) (filled N w) fb.
Proof. intros Gv Sn. pose proof (template_page0 ec g N Gv Sn w true (IndStr []) fb [] [] fb (PG_end _ _ _ _)) as K. rewrite !app_nil_r in K. exact K. Qed.
Lemma solid_more N w : solid N -> no_break w -> solid (N ++ w).
Proof. intros (H & c & r & -> & C) Hw. split; [apply Forall_app; split; assumption|]. exists c, (r ++ w). split; [reflexivity|exact C]. Qed.
Lemma filled_same n u : ~ In 64 u -> filled n u = u.
Proof. intros H. induction u as [|c u IH]; [reflexivity|]. unfold filled. cbn [flat_map]. fold (filled n u). rewrite IH by (intros Hi; apply H; right; exact Hi). destruct (N.eqb_spec c 64) as [->|_]; [exfalso; apply H; left; reflexivity|reflexivity]. Qed.
Lemma use_inline r a N ind fb rest t fb' : s_txt a = lit "inline" -> ~ In (lit "inline") (names later) ->
  c_python (e_parse ec) = false -> c_skip (e_parse ec) = SkipNone -> gives (values_in [] g) (lit "h-name") (NRaw N) -> solid N ->
  page ec g IndFalse fb rest t fb' -> page ec g ind fb (NApply (NVar r a) [] [] None 0 :: rest) (N ++ lit "_INL" ++ t) fb'.
Proof.
  intros Ea Nl Py Sk Gv Sn Hp. rewrite (app_assoc N (lit "_INL") t).
  pose proof (name_line (lit "@_INL") fb N Gv Sn) as Pg. change (filled N (lit "@_INL")) with (N ++ lit "_INL") in Pg.
  eapply PG_called with (u := N ++ lit "_INL") (fb1 := fb); [| |exact Hp].
  - eapply CA_call with (later := later) (before := skipn 1 light_defs ++ before) (m := lit "inline") (vs := []) (us := []) (c := parts_of (lit "@_INL") ++ []).
    + reflexivity.
    + exact Nl.
    + exact Ea.
    + intros [].
    + apply AV_end.
    + apply Forall2_nil.
    + reflexivity.
    + apply FormatCases.turn_of. reflexivity.
    + rewrite Py, Sk. change (shown_name ++ lit "_INL") with (filled shown_name (lit "@_INL") ++ []). apply template_written; [vm_compute; reflexivity| |discriminate]. intros n0. apply wr_end. exact Logic.I.
    + rewrite Py. discriminate.
    + rewrite app_nil_r. assert (Nd : Forall (fun z => ~ a_definition z) (runs true [] (parts_of (lit "@_INL")))) by (vm_compute; repeat constructor; intros []).
      apply RP_many; assumption.
  - cbn [an_application]. apply placed_solid, solid_more; [exact Sn|]. repeat constructor.
Qed.
Lemma runs_chars u : forall first w, runs first w (map inl u) = run first (w ++ u).
Proof. induction u as [|c u IH]; intros first w; cbn [map runs]; [rewrite app_nil_r; reflexivity|]. rewrite IH, <- app_assoc. reflexivity. Qed.
Lemma parts_chars u : ~ In 64 u -> parts_of u = map inl u.
Proof. intros H. induction u as [|c u IH]; [reflexivity|]. unfold parts_of. cbn [map]. fold (parts_of u). rewrite IH by (intros Hi; apply H; right; exact Hi). destruct (N.eqb_spec c 64) as [->|_]; [exfalso; apply H; left; reflexivity|reflexivity]. Qed.
Lemma use_var r a x val u N ind fb rest t fb' : s_txt a = lit "var" -> ~ In (lit "var") (names later) ->
  c_python (e_parse ec) = false -> c_skip (e_parse ec) = SkipNone -> gives (values_in [] g) (lit "h-name") (NRaw N) -> solid N ->
  value ec (InText g) x val -> FormatSpec.inserts val u -> Forall (fun c => declaration_char c /\ c <> 10 /\ c <> 64) u ->
  page ec g IndFalse fb rest t fb' -> page ec g ind fb (NApply (NVar r a) [x] [] None 0 :: rest) (N ++ lit "_VAR( " ++ u ++ lit " );" ++ t) fb'.
Proof.
  intros Ea Nl Py Sk Gv Sn Vx In_ Hu Hp.
  assert (H64 : ~ In 64 u) by (intros H; rewrite Forall_forall in Hu; destruct (Hu _ H) as (_ & _ & H'); apply H'; reflexivity).
  set (w := lit "_VAR( " ++ u ++ lit " );").
  assert (W64 : ~ In 64 w) by (unfold w; rewrite !in_app_iff; intros [H|[H|H]]; [vm_compute in H; intuition discriminate|exact (H64 H)|vm_compute in H; intuition discriminate]).
  assert (Q : forallb quiet w = true).
  { unfold w. rewrite !forallb_app. apply andb_true_iff. split; [reflexivity|]. apply andb_true_iff. split; [|reflexivity]. apply forallb_forall. intros c Hc. rewrite Forall_forall in Hu. destruct (Hu _ Hc) as (D & _).
    unfold quiet. apply andb_true_iff. unfold declaration_char in D. cbn [In] in D. split; [lia|]. apply ps_ANY_spec. unfold permitted, line_end. lia. }
  assert (B : no_break w).
  { unfold w, no_break. rewrite !Forall_app. split; [repeat constructor|]. split; [|repeat constructor]. eapply Forall_impl; [|exact Hu]. intros c (D & D2 & _). unfold declaration_char in D. unfold py_isbreak. cbn [In] in D. lia. }
  replace (N ++ lit "_VAR( " ++ u ++ lit " );" ++ t) with ((N ++ w) ++ t) by (unfold w; rewrite <- !app_assoc; reflexivity).
  pose proof (name_line (64 :: w) fb N Gv Sn) as Pg.
  assert (Ew : forall n, filled n (64 :: w) = n ++ w) by (intros n; unfold filled; cbn [flat_map N.eqb Pos.eqb]; fold (filled n w); rewrite (filled_same n w W64); reflexivity).
  rewrite Ew in Pg.
  assert (Er : runs true [] (parts_of (64 :: w)) = [show_h; NPlain (raw w) (fold_left indent_behind w IndNone) false]).
  { change (parts_of (64 :: w)) with (inr show_h :: parts_of w). rewrite (parts_chars w W64). cbn [runs run app]. rewrite runs_chars. cbn [app]. unfold run. reflexivity. }
  eapply PG_called with (u := N ++ w) (fb1 := fb); [| |exact Hp].
  - eapply CA_call with (later := later ++ firstn 2 light_defs) (before := skipn 3 light_defs ++ before) (m := lit "var") (vs := [val]) (us := [u]) (c := parts_of (64 :: w) ++ []).
    + rewrite <- app_assoc. reflexivity.
    + unfold names. rewrite map_app, in_app_iff. intros [H|H]; [exact (Nl H)|]. cbn [firstn light_defs map fst In] in H. repeat (destruct H as [H|H]; [discriminate H|]). exact H.
    + exact Ea.
    + intros [H|[]]; discriminate H.
    + apply AV_more; [exact Vx|apply AV_end].
    + apply Forall2_cons; [exact In_|apply Forall2_nil].
    + reflexivity.
    + apply FormatCases.turn_of with (u := shown_name ++ w). reflexivity.
    + rewrite Py, Sk. rewrite <- (Ew shown_name), <- (app_nil_r (filled shown_name (64 :: w))). apply template_written; [cbn [forallb]; rewrite Q; reflexivity| |discriminate]. intros n0. apply wr_end. exact Logic.I.
    + rewrite Py. discriminate.
    + rewrite app_nil_r, Er in *. apply RP_many; [repeat constructor; intros []|exact Pg].
  - cbn [an_application]. apply placed_solid, solid_more; assumption.
Qed.
End Use.
