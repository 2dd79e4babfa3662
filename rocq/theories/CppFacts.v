(** * Inclusion of a guarded header (proofs only) *)
From Coq Require Import List Arith Wf_nat NArith Bool String Lia ZifyBool ZifyNat ZifyN.
From Verif Require Import PyStr PyStrFacts Ast GuardSpec CppSpec.
Import ListNotations.
Open Scope list_scope.
Open Scope N_scope.

Lemma lines_plain n : Forall (fun c => c <> 10 /\ c <> 92) n -> forall front r, lines_from front (n ++ r) = lines_from (front ++ n) r.
Proof.
  induction 1 as [|c n [H1 H2] _ IH]; intros front r; [rewrite app_nil_r; reflexivity|]. cbn [app].
  assert (E : lines_from front (c :: n ++ r) = lines_from (front ++ [c]) (n ++ r)).
  { cbn [lines_from]. destruct c as [|p]; [reflexivity|]. repeat (destruct p as [p|p|]; try reflexivity; try (exfalso; lia)). }
  rewrite E, IH, <- app_assoc. reflexivity.
Qed.
Lemma lines_char c front r : c <> 10 -> (c = 92 -> forall x, r <> 10 :: x) -> lines_from front (c :: r) = lines_from (front ++ [c]) r.
Proof.
  intros H1 H2. assert (E : c = 92 \/ c <> 92) by lia. destruct E as [-> | E].
  - specialize (H2 eq_refl). destruct r as [|d r]; [reflexivity|]. cbn [lines_from]. destruct d as [|p]; [reflexivity|]. repeat (destruct p as [p|p|]; try reflexivity). exfalso. exact (H2 r eq_refl).
  - change (c :: r) with ([c] ++ r). apply lines_plain. constructor; [split; assumption|constructor].
Qed.
Lemma lines_break u : (forall x, u <> x ++ [92]) -> forall front v, lines_from front (u ++ 10 :: v) = lines_from front (u ++ [10]) ++ lines_of v.
Proof.
  remember (List.length u) as k eqn:Ek. revert u Ek. induction k as [k IH] using lt_wf_ind. intros u Ek Hu front v. subst k. destruct u as [|c u]; [reflexivity|].
  assert (Hu' : forall x, u <> x ++ [92]) by (intros x Ex; apply (Hu (c :: x)); rewrite Ex; reflexivity).
  assert (D : c = 10 \/ (c = 92 /\ exists x, u = 10 :: x) \/ (c <> 10 /\ (c = 92 -> forall x, u <> 10 :: x))).
  { destruct (N.eq_dec c 10) as [->|H1]; [left; reflexivity|right]. destruct (N.eq_dec c 92) as [->|H2]; [|right; split; [exact H1|intros E; contradiction]].
    destruct u as [|d u]; [right; split; [exact H1|intros _ x E; discriminate E]|]. destruct (N.eq_dec d 10) as [->|H3]; [left; split; [reflexivity|exists u; reflexivity]|]. right. split; [exact H1|]. intros _ x E. injection E as E _. contradiction. }
  destruct D as [-> | [(-> & x & ->)|[H1 H2]]].
  - cbn [app]. change (lines_from front (10 :: u ++ 10 :: v)) with (front :: lines_from [] (u ++ 10 :: v)). change (lines_from front (10 :: u ++ [10])) with (front :: lines_from [] (u ++ [10])).
    rewrite (IH (List.length u) ltac:(cbn; lia) u eq_refl Hu'). reflexivity.
  - cbn [app]. change (lines_from front (92 :: 10 :: x ++ 10 :: v)) with (lines_from front (x ++ 10 :: v)). change (lines_from front (92 :: 10 :: x ++ [10])) with (lines_from front (x ++ [10])).
    apply (IH (List.length x)); [cbn; lia|reflexivity|]. intros y Ey. apply (Hu' (10 :: y)). rewrite Ey. reflexivity.
  - assert (G : forall z, c = 92 -> forall x, u ++ 10 :: z <> 10 :: x).
    { intros z Hc x E. destruct u as [|d u]; [|injection E as -> _; exact (H2 Hc u eq_refl)]. apply (Hu []). rewrite Hc. reflexivity. }
    cbn [app]. rewrite (lines_char c front _ H1 (G v)), (lines_char c front _ H1 (G [])). apply (IH (List.length u)); [cbn; lia|reflexivity|exact Hu'].
Qed.
Lemma front_word n : Forall (fun c => c_word c = true) n -> forall t, front_of c_word (n ++ t) = n ++ front_of c_word t.
Proof. induction 1 as [|c m Hc _ IH]; intros t; [reflexivity|]. cbn [app front_of]. rewrite Hc, IH. reflexivity. Qed.
Section Filled.
Variable n : text.
Hypothesis Hw : Forall (fun c => c_word c = true) n.
Hypothesis Hne : n <> [].
Lemma word_plain : Forall (fun c => c <> 10 /\ c <> 92) n.
Proof. eapply Forall_impl; [|exact Hw]. intros c H. unfold c_word, c_letter in H. lia. Qed.
Lemma filled_char c t : filled n (c :: t) = (if c =? 64 then n else [c]) ++ filled n t.
Proof. reflexivity. Qed.
Lemma filled_more a b : filled n (a ++ b) = filled n a ++ filled n b.
Proof. unfold filled. apply flat_map_app. Qed.
Lemma filled_not_break t : (forall x, t <> 10 :: x) -> forall x, filled n t <> 10 :: x.
Proof.
  intros H x E. destruct t as [|c t]; [discriminate E|]. rewrite filled_char in E. destruct (N.eqb_spec c 64) as [Hc|Hc].
  - pose proof word_plain as P. destruct n as [|d m]; [contradiction|]. injection E as -> _. inversion P as [|? ? [P1 _] _]; subst. contradiction.
  - injection E as -> _. exact (H t eq_refl).
Qed.
Lemma lines_filled t : forall a, lines_from (filled n a) (filled n t) = map (filled n) (lines_from a t).
Proof.
  remember (List.length t) as k eqn:Ek. revert t Ek. induction k as [k IH] using lt_wf_ind. intros t Ek a. subst k. destruct t as [|c t].
  - change (filled n []) with (@nil N). cbn [lines_from]. destruct a as [|d a]; [reflexivity|]. cbn [map]. rewrite filled_char. clear -Hne. destruct (N.eqb_spec d 64) as [Hc|Hc]; [destruct n; [contradiction|reflexivity]|reflexivity].
  - assert (D : c = 10 \/ (c = 92 /\ exists x, t = 10 :: x) \/ (c <> 10 /\ (c = 92 -> forall x, t <> 10 :: x))).
    { destruct (N.eq_dec c 10) as [->|H1]; [left; reflexivity|right]. destruct (N.eq_dec c 92) as [->|H2]; [|right; split; [exact H1|intros E; contradiction]].
      destruct t as [|d t]; [right; split; [exact H1|intros _ x E; discriminate E]|]. destruct (N.eq_dec d 10) as [->|H3]; [left; split; [reflexivity|exists t; reflexivity]|]. right. split; [exact H1|]. intros _ x E. injection E as E _. contradiction. }
    destruct D as [-> | [(-> & x & ->)|[H1 H2]]].
    + change (filled n (10 :: t)) with (10 :: filled n t). change (lines_from (filled n a) (10 :: filled n t)) with (filled n a :: lines_from [] (filled n t)). change (lines_from a (10 :: t)) with (a :: lines_from [] t). cbn [map]. f_equal.
      change (@nil N) with (filled n []) at 1. apply (IH (List.length t)); [cbn; lia|reflexivity].
    + change (filled n (92 :: 10 :: x)) with (92 :: 10 :: filled n x). change (lines_from (filled n a) (92 :: 10 :: filled n x)) with (lines_from (filled n a) (filled n x)). change (lines_from a (92 :: 10 :: x)) with (lines_from a x). apply (IH (List.length x)); [cbn; lia|reflexivity].
    + rewrite (lines_char c a t H1 H2). destruct (N.eqb_spec c 64) as [->|Hc].
      * rewrite filled_char. cbn [N.eqb Pos.eqb]. rewrite (lines_plain n word_plain). rewrite <- (IH (List.length t) ltac:(cbn; lia) t eq_refl (a ++ [64])). rewrite filled_more. cbn [filled flat_map N.eqb Pos.eqb]. rewrite app_nil_r. reflexivity.
      * rewrite filled_char. replace (c =? 64) with false by lia. cbn [app]. rewrite lines_char; [|exact H1|intros Ec; apply filled_not_break, H2, Ec].
        rewrite <- (IH (List.length t) ltac:(cbn; lia) t eq_refl (a ++ [c])), filled_more. unfold filled at 4. cbn [flat_map]. replace (c =? 64) with false by lia. reflexivity.
Qed.
Lemma past_word t : past c_blank (n ++ t) = n ++ t.
Proof. destruct n as [|c m]; [contradiction|]. cbn [app past]. inversion Hw as [|? ? Hc _]; subst. replace (c_blank c) with false; [reflexivity|]. unfold c_word, c_letter, c_blank in *. lia. Qed.
End Filled.

Definition begin_lines : list text := Eval vm_compute in lines_of (10 :: header_begin ++ [10]).
Definition end_lines : list text := Eval vm_compute in lines_of header_end.
Section Header.
Variables (holds : text -> bool) (n : text).
Hypothesis Hw : Forall (fun c => c_word c = true) n.
Hypothesis Hne : n <> [].
Notation "[@ s ]" := (n ++ lit s).
Lemma begin_lines_eq : lines_of (10 :: filled n header_begin ++ [10]) = map (filled n) begin_lines.
Proof.
  unfold lines_of. change (10 :: filled n header_begin ++ [10]) with (filled n [10] ++ filled n header_begin ++ filled n [10]). rewrite <- !filled_more. change (@nil N) with (filled n []) at 1. rewrite (lines_filled n Hw Hne). f_equal; vm_compute; reflexivity.
Qed.
Lemma header_lines b : (forall x, b <> x ++ [92]) -> lines_of (header n b) = map (filled n) begin_lines ++ lines_of (b ++ [10]) ++ map (filled n) end_lines.
Proof.
  intros Hb.
  assert (Eb : exists y, filled n header_begin = y ++ [10]).
  { exists (filled n (removelast header_begin)). change [10] with (filled n [10]). rewrite <- filled_more. f_equal; vm_compute; reflexivity. }
  pose proof begin_lines_eq as E1.
  assert (E2 : lines_of (filled n header_end) = map (filled n) end_lines).
  { unfold lines_of. change (@nil N) with (filled n []) at 1. rewrite (lines_filled n Hw Hne). f_equal; vm_compute; reflexivity. }
  unfold header. rewrite <- E1, <- E2. revert Eb. generalize (filled n header_begin) (filled n header_end). intros u v [y ->].
  unfold lines_of at 1 2 3. rewrite app_comm_cons, lines_break.
  - f_equal. unfold lines_of at 1. apply lines_break, Hb.
  - intros x E. change (10 :: y ++ [10]) with ((10 :: y) ++ [10]) in E. apply app_inj_tail in E as [_ E]. discriminate E.
Qed.

Notation inc k D ls o k' D' := (includes holds k D ls = (o, k', D')).
Notation on k := (forallb (fun c : bool => c) k).
Lemma inc_none k D l ls o k' D' : directive l = None -> inc k D ls o k' D' -> inc k D (l :: ls) ((if on k then [l] else []) ++ o) k' D'.
Proof. intros H E. cbn [includes]. rewrite H, E. destruct (on k); reflexivity. Qed.
Lemma inc_ifndef k D l ls m r o k' D' : directive l = Some (lit "ifndef", m, r) -> inc (negb (D m) :: k) D ls o k' D' -> inc k D (l :: ls) o k' D'.
Proof. intros H E. cbn [includes]. rewrite H. exact E. Qed.
Lemma inc_ifdef k D l ls m r o k' D' : directive l = Some (lit "ifdef", m, r) -> inc (D m :: k) D ls o k' D' -> inc k D (l :: ls) o k' D'.
Proof. intros H E. cbn [includes]. rewrite H. exact E. Qed.
Lemma inc_if k D l ls m r o k' D' : directive l = Some (lit "if", m, r) -> inc (holds r :: k) D ls o k' D' -> inc k D (l :: ls) o k' D'.
Proof. intros H E. cbn [includes]. rewrite H. exact E. Qed.
Lemma inc_else c k D l ls m r o k' D' : directive l = Some (lit "else", m, r) -> inc (negb c :: k) D ls o k' D' -> inc (c :: k) D (l :: ls) o k' D'.
Proof. intros H E. cbn [includes]. rewrite H. exact E. Qed.
Lemma inc_endif c k D l ls m r o k' D' : directive l = Some (lit "endif", m, r) -> inc k D ls o k' D' -> inc (c :: k) D (l :: ls) o k' D'.
Proof. intros H E. cbn [includes]. rewrite H. exact E. Qed.
Lemma inc_define k D l ls m r o k' D' : directive l = Some (lit "define", m, r) -> inc k (if on k then defined D m true else D) ls o k' D' -> inc k D (l :: ls) o k' D'.
Proof. intros H E. cbn [includes]. rewrite H. exact E. Qed.
Lemma inc_undef k D l ls m r o k' D' : directive l = Some (lit "undef", m, r) -> inc k (if on k then defined D m false else D) ls o k' D' -> inc k D (l :: ls) o k' D'.
Proof. intros H E. cbn [includes]. rewrite H. exact E. Qed.
Lemma inc_body k D b ls o k' D' : Forall (fun l => directive l = None) b -> inc k D ls o k' D' -> inc k D (b ++ ls) ((if on k then b else []) ++ o) k' D'.
Proof.
  intros Hb E. induction Hb as [|l b Hl _ IH]; [destruct (on k); exact E|]. cbn [app]. eassert (E2 := inc_none _ _ _ _ _ _ _ Hl IH). rewrite E2. destruct (on k); reflexivity.
Qed.
(** what the lines of the guard are *)
Lemma inc_out k D ls o1 o k' D' : inc k D ls o1 k' D' -> o1 = o -> inc k D ls o k' D'.
Proof. intros H <-. exact H. Qed.
Ltac dir := unfold directive; cbn [filled flat_map N.eqb Pos.eqb app past front_of c_blank c_letter c_word N.leb N.compare Pos.compare Pos.compare_cont andb orb];
  rewrite ?(past_word n Hw Hne), ?(front_word n Hw); cbn [past front_of c_blank c_letter c_word N.eqb Pos.eqb N.leb N.compare Pos.compare Pos.compare_cont andb orb]; reflexivity.
Ltac step := first
  [ eapply inc_none; [dir|] | eapply inc_ifndef; [dir|] | eapply inc_ifdef; [dir|] | eapply inc_if; [dir|] | eapply inc_else; [dir|] | eapply inc_endif; [dir|] | eapply inc_define; [dir|] | eapply inc_undef; [dir|] ].
Lemma end_inc k D o k' D' ls : on k = true -> inc k (defined (defined (defined D [@"_VAR"] false) [@"_VAR_INIT"] false) [@"_INL"] false) ls o k' D' ->
  inc (true :: k) D (map (filled n) end_lines ++ ls) ([] :: o) k' D'.
Proof.
  intros Hk H. unfold end_lines. cbn [map app]. eapply inc_out; [|reflexivity].
  eapply inc_out; [do 5 (step; cbn [forallb andb negb]; rewrite ?Hk)|].
  - exact H.
  - cbn [forallb andb]. rewrite Hk. reflexivity.
Qed.
Lemma other_name a b : a <> b -> forall D c, defined D (n ++ a) c (n ++ b) = D (n ++ b).
Proof. intros H D c. unfold defined. replace (teqb (n ++ b) (n ++ a)) with false; [reflexivity|]. symmetry. apply teqb_neq. intros E. apply app_inv_head in E. congruence. Qed.
Definition guarded (D : text -> bool) : text -> bool := defined (defined (defined (defined D [@"_H"] true) [@"_VAR"] true) [@"_VAR_INIT"] true) [@"_INL"] true.
Ltac known b H := match goal with |- inc (?c :: _) _ _ _ _ _ => replace c with b by (symmetry; exact H) end.
Lemma begin_inc k D : on k = true -> D [@"_H"] = false -> forall ls o k' D', inc (true :: k) (guarded D) ls o k' D' -> inc k D (map (filled n) begin_lines ++ ls) (repeat [] 5 ++ o) k' D'.
Proof.
  intros Hk Hd ls o k' D' H. unfold begin_lines. cbn [map app].
  assert (Hi : defined D [@"_H"] true [@"_IMPLEMENT"] = D [@"_IMPLEMENT"]) by (apply other_name; discriminate).
  assert (Hd' : negb (D [@"_H"]) = true) by (rewrite Hd; reflexivity).
  destruct (D [@"_IMPLEMENT"]) eqn:Ei; [|destruct (holds (lit " __GNUC__ && !__GNUC_STDC_INLINE__")) eqn:Eh].
  - eapply inc_out; [do 2 step; known true Hd'; do 3 (step; cbn [forallb andb negb]; rewrite ?Hk); known true Hi; do 17 (step; cbn [forallb andb negb]; rewrite ?andb_false_r, ?Hk); exact H|].
    cbn [forallb andb negb]. rewrite ?andb_false_r, ?Hk. reflexivity.
  - eapply inc_out; [do 2 step; known true Hd'; do 3 (step; cbn [forallb andb negb]; rewrite ?Hk); known false Hi; do 10 (step; cbn [forallb andb negb]; rewrite ?andb_false_r, ?Hk); known true Eh; do 7 (step; cbn [forallb andb negb]; rewrite ?andb_false_r, ?Hk); exact H|].
    cbn [forallb andb negb]. rewrite ?andb_false_r, ?Hk. reflexivity.
  - eapply inc_out; [do 2 step; known true Hd'; do 3 (step; cbn [forallb andb negb]; rewrite ?Hk); known false Hi; do 10 (step; cbn [forallb andb negb]; rewrite ?andb_false_r, ?Hk); known false Eh; do 7 (step; cbn [forallb andb negb]; rewrite ?andb_false_r, ?Hk); exact H|].
    cbn [forallb andb negb]. rewrite ?andb_false_r, ?Hk. reflexivity.
Qed.
Lemma again_inc k D : D [@"_H"] = true -> forall ls o k' D', inc (false :: k) D ls o k' D' -> inc k D (map (filled n) begin_lines ++ ls) ((if on k then [[]] else []) ++ o) k' D'.
Proof.
  intros Hd ls o k' D' H. unfold begin_lines. cbn [map app].
  assert (Hd' : negb (D [@"_H"]) = false) by (rewrite Hd; reflexivity).
  eapply inc_out; [do 2 step; known false Hd'; do 20 (step; cbn [forallb andb negb]; rewrite ?andb_false_r); exact H|].
  cbn [forallb andb negb]. rewrite ?andb_false_r. reflexivity.
Qed.
Lemma again_end k D o k' D' ls : inc k D ls o k' D' -> inc (false :: k) D (map (filled n) end_lines ++ ls) o k' D'.
Proof. intros H. unfold end_lines. cbn [map app]. eapply inc_out; [do 5 (step; cbn [forallb andb negb]); exact H|]. reflexivity. Qed.
Lemma guarded_names D m : guarded D m = existsb (teqb m) [[@"_H"]; [@"_VAR"]; [@"_VAR_INIT"]; [@"_INL"]] || D m.
Proof. unfold guarded, defined. cbn [existsb]. destruct (teqb m [@"_INL"]), (teqb m [@"_VAR_INIT"]), (teqb m [@"_VAR"]), (teqb m [@"_H"]); reflexivity. Qed.
Notation full := (filter (fun l => negb (blank_line l))).
Lemma included_first k D b : on k = true -> D [@"_H"] = false -> (forall x, b <> x ++ [92]) -> Forall (fun l => directive l = None) (lines_of (b ++ [10])) ->
  exists o D', includes holds k D (lines_of (header n b)) = (o, k, D') /\ full o = full (lines_of (b ++ [10])) /\
    forall m, D' m = if existsb (teqb m) [[@"_VAR"]; [@"_VAR_INIT"]; [@"_INL"]] then false else teqb m [@"_H"] || D m.
Proof.
  intros Hk Hd Hb Hl. rewrite (header_lines b Hb). do 2 eexists. split; [|split].
  - apply (begin_inc k D Hk Hd). apply inc_body; [exact Hl|]. rewrite <- (app_nil_r (map (filled n) end_lines)). eapply (end_inc k _ _ _ _ _ Hk). reflexivity.
  - cbn [forallb andb]. rewrite Hk, !filter_app. cbn. rewrite app_nil_r. reflexivity.
  - intros m. unfold defined at 1 2 3. rewrite guarded_names. cbn [existsb].
    destruct (teqb m [@"_INL"]), (teqb m [@"_VAR_INIT"]), (teqb m [@"_VAR"]), (teqb m [@"_H"]); reflexivity.
Qed.
Lemma included_inside k D : on k = true -> D [@"_H"] = false ->
  exists o D', includes holds k D (lines_of (10 :: filled n header_begin ++ [10])) = (o, true :: k, D') /\ full o = [] /\
    forall m, D' m = existsb (teqb m) [[@"_H"]; [@"_VAR"]; [@"_VAR_INIT"]; [@"_INL"]] || D m.
Proof.
  intros Hk Hd. rewrite (begin_lines_eq). exists (repeat [] 5 ++ []), (guarded D). split; [|split; [reflexivity|apply guarded_names]].
  rewrite <- (app_nil_r (map (filled n) begin_lines)). apply (begin_inc k D Hk Hd). reflexivity.
Qed.
Lemma included_again k D b : D [@"_H"] = true -> (forall x, b <> x ++ [92]) -> Forall (fun l => directive l = None) (lines_of (b ++ [10])) ->
  exists o, includes holds k D (lines_of (header n b)) = (o, k, D) /\ full o = [].
Proof.
  intros Hd Hb Hl. rewrite (header_lines b Hb). eexists. split.
  - apply (again_inc k D Hd). apply inc_body; [exact Hl|]. rewrite <- (app_nil_r (map (filled n) end_lines)). apply again_end. reflexivity.
  - cbn [forallb andb]. destruct (on k); reflexivity.
Qed.
End Header.
