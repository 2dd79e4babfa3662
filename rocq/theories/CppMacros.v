(** * What the helpers of a header stand for (proofs only) *)
From Coq Require Import List NArith Bool String Lia ZifyBool ZifyNat ZifyN.
From Verif Require TextSpec.
From Verif Require Import PyStr PyStrFacts Ast LexSpec GuardSpec GuardFinal CppSpec CppFacts CppCases CppSpec2.
Import ListNotations.
Open Scope list_scope.
Open Scope N_scope.

Lemma past_all p n : Forall (fun c => p c = true) n -> forall t, past p (n ++ t) = past p t.
Proof. induction 1 as [|c m Hc _ IH]; intros t; [reflexivity|]. cbn [app past]. rewrite Hc. apply IH. Qed.
Section Macros.
Variables (holds : text -> bool) (n : text).
Hypothesis Hw : Forall (fun c => c_word c = true) n.
Hypothesis Hne : n <> [].
Notation "[@ s ]" := (n ++ lit s).
Notation on k := (forallb (fun c : bool => c) k).
Notation has M m := (existsb (fun p : text * text => teqb (fst p) m) M).
Notation mac k M ls R := (macros holds k M ls = R).
Lemma mac_none k M l ls R : directive l = None -> mac k M ls R -> mac k M (l :: ls) R.
Proof. intros H E. cbn [macros]. rewrite H. exact E. Qed.
Lemma mac_ifndef k M l ls m r R : directive l = Some (lit "ifndef", m, r) -> mac (negb (has M m) :: k) M ls R -> mac k M (l :: ls) R.
Proof. intros H E. cbn [macros]. rewrite H. exact E. Qed.
Lemma mac_ifdef k M l ls m r R : directive l = Some (lit "ifdef", m, r) -> mac (has M m :: k) M ls R -> mac k M (l :: ls) R.
Proof. intros H E. cbn [macros]. rewrite H. exact E. Qed.
Lemma mac_if k M l ls m r R : directive l = Some (lit "if", m, r) -> mac (holds r :: k) M ls R -> mac k M (l :: ls) R.
Proof. intros H E. cbn [macros]. rewrite H. exact E. Qed.
Lemma mac_else c k M l ls m r R : directive l = Some (lit "else", m, r) -> mac (negb c :: k) M ls R -> mac (c :: k) M (l :: ls) R.
Proof. intros H E. cbn [macros]. rewrite H. exact E. Qed.
Lemma mac_endif c k M l ls m r R : directive l = Some (lit "endif", m, r) -> mac k M ls R -> mac (c :: k) M (l :: ls) R.
Proof. intros H E. cbn [macros]. rewrite H. exact E. Qed.
Lemma mac_define k M l ls m r d R : directive l = Some (lit "define", m, r) -> definition_of r = d -> mac k (if on k then (m, d) :: forgotten m M else M) ls R -> mac k M (l :: ls) R.
Proof. intros H <- E. cbn [macros]. rewrite H. exact E. Qed.
Ltac dir := unfold directive; cbn [filled flat_map N.eqb Pos.eqb app past front_of c_blank c_letter c_word N.leb N.compare Pos.compare Pos.compare_cont andb orb];
  rewrite ?(past_word n Hw Hne), ?(front_word n Hw); cbn [past front_of c_blank c_letter c_word N.eqb Pos.eqb N.leb N.compare Pos.compare Pos.compare_cont andb orb]; reflexivity.
Ltac bod := unfold definition_of; cbn [past c_blank N.eqb Pos.eqb orb]; rewrite (past_word n Hw Hne), (past_all c_word n Hw); reflexivity.
Ltac step := first
  [ eapply mac_none; [dir|] | eapply mac_ifndef; [dir|] | eapply mac_ifdef; [dir|] | eapply mac_if; [dir|] | eapply mac_else; [dir|] | eapply mac_endif; [dir|] | eapply mac_define; [dir|bod|] ].
Ltac known b H := match goal with |- mac (?c :: _) _ _ _ => replace c with b by (symmetry; exact H) end.
Lemma has_forgotten M a b : a <> b -> has (forgotten (n ++ a) M) (n ++ b) = has M (n ++ b).
Proof.
  intros H. induction M as [|[x y] M IH]; [reflexivity|]. cbn [forgotten filter fst]. fold (forgotten (n ++ a) M). destruct (teqb x (n ++ a)) eqn:E; cbn [negb existsb fst].
  - rewrite IH. apply teqb_eq in E as ->. replace (teqb (n ++ a) (n ++ b)) with false; [reflexivity|]. symmetry. apply teqb_neq. intros E. apply app_inv_head in E. contradiction.
  - rewrite IH. reflexivity.
Qed.
Lemma forgotten_free m M : has M m = false -> forgotten m M = M.
Proof. induction M as [|[x y] M IH]; [reflexivity|]. cbn [forgotten filter existsb fst]. fold (forgotten m M). destruct (teqb x m); [discriminate|]. intros H. cbn [negb]. f_equal. apply IH, H. Qed.
(** what the helpers stand for *)
Definition helpers_here : list (text * text) :=
  [ ([@"_INL"], []); ([@"_VAR_INIT"], lit "( decl, ... ) 	decl = __VA_ARGS__"); ([@"_VAR"], lit "( decl ) 	decl"); ([@"_H"], []) ].
Definition helpers_there (gnu : bool) : list (text * text) :=
  [ ([@"_INL"], if gnu then lit " 	extern inline" else lit " 	inline"); ([@"_VAR_INIT"], lit "( decl, ... ) 	extern decl"); ([@"_VAR"], lit "( decl ) 	extern decl"); ([@"_H"], []) ].
Lemma teqb_head a b : teqb (n ++ a) (n ++ b) = teqb a b.
Proof.
  destruct (teqb a b) eqn:E; [apply teqb_eq in E as ->; apply teqb_eq; reflexivity|]. apply teqb_neq. intros H. apply app_inv_head in H as ->. rewrite (proj2 (teqb_eq b b) eq_refl) in E. discriminate E.
Qed.
Lemma forgotten_cons a b d M : forgotten (n ++ a) ((n ++ b, d) :: M) = if teqb b a then forgotten (n ++ a) M else (n ++ b, d) :: forgotten (n ++ a) M.
Proof. unfold forgotten. cbn [filter fst]. rewrite teqb_head. destruct (teqb b a); reflexivity. Qed.
Ltac names := repeat match goal with |- context [teqb ?a ?b] => let c := eval vm_compute in (teqb a b) in change (teqb a b) with c end; cbv iota.
Lemma helpers_go k M : on k = true -> Forall (fun s => has M (n ++ s) = false) [lit "_H"; lit "_VAR"; lit "_VAR_INIT"; lit "_INL"] ->
  forall ls R, mac (true :: k) ((if has M [@"_IMPLEMENT"] then helpers_here else helpers_there (holds (lit " __GNUC__ && !__GNUC_STDC_INLINE__"))) ++ M) ls R -> mac k M (map (filled n) begin_lines ++ ls) R.
Proof.
  intros Hk HM. unfold begin_lines. cbn [map app].
  inversion HM as [|? ? Mh HM1]; subst. inversion HM1 as [|? ? Mv HM2]; subst. inversion HM2 as [|? ? Mi HM3]; subst. inversion HM3 as [|? ? Ml _]; subst. clear HM HM1 HM2 HM3. intros ls R H.
  assert (Hd' : negb (has M [@"_H"]) = true) by (rewrite Mh; reflexivity).
  assert (Hi : forall d, has (([@"_H"], d) :: forgotten [@"_H"] M) [@"_IMPLEMENT"] = has M [@"_IMPLEMENT"]).
  { intros d. cbn [existsb fst]. rewrite teqb_head, has_forgotten by discriminate. reflexivity. }
  apply forgotten_free in Mh, Mv, Mi, Ml.
  change (lit "_H") with [95; 72] in Mh. change (lit "_VAR") with [95; 86; 65; 82] in Mv. change (lit "_VAR_INIT") with [95; 86; 65; 82; 95; 73; 78; 73; 84] in Mi. change (lit "_INL") with [95; 73; 78; 76] in Ml.
  destruct (has M [@"_IMPLEMENT"]) eqn:Ei; [|destruct (holds (lit " __GNUC__ && !__GNUC_STDC_INLINE__")) eqn:Eh].
  all: do 2 step; known true Hd'; do 3 (step; cbn [forallb andb negb]; rewrite ?Hk).
  all: match goal with |- mac (?c :: _) _ _ _ => first [replace c with true by (symmetry; apply Hi)|replace c with false by (symmetry; apply Hi)] end.
  - do 17 (step; cbn [forallb andb negb]; rewrite ?andb_false_r, ?Hk). match type of H with mac _ ?A _ _ => match goal with |- mac _ ?B _ _ => replace B with A; [exact H|symmetry] end end. repeat (rewrite ?forgotten_cons, ?Mh, ?Mv, ?Mi, ?Ml; names). reflexivity.
  - do 10 (step; cbn [forallb andb negb]; rewrite ?andb_false_r, ?Hk). known true Eh. do 7 (step; cbn [forallb andb negb]; rewrite ?andb_false_r, ?Hk). match type of H with mac _ ?A _ _ => match goal with |- mac _ ?B _ _ => replace B with A; [exact H|symmetry] end end. repeat (rewrite ?forgotten_cons, ?Mh, ?Mv, ?Mi, ?Ml; names). reflexivity.
  - do 10 (step; cbn [forallb andb negb]; rewrite ?andb_false_r, ?Hk). known false Eh. do 7 (step; cbn [forallb andb negb]; rewrite ?andb_false_r, ?Hk). match type of H with mac _ ?A _ _ => match goal with |- mac _ ?B _ _ => replace B with A; [exact H|symmetry] end end. repeat (rewrite ?forgotten_cons, ?Mh, ?Mv, ?Mi, ?Ml; names). reflexivity.
Qed.
Lemma helpers_of k M : on k = true -> Forall (fun s => has M (n ++ s) = false) [lit "_H"; lit "_VAR"; lit "_VAR_INIT"; lit "_INL"] ->
  macros holds k M (lines_of (10 :: filled n header_begin ++ [10])) =
    (if has M [@"_IMPLEMENT"] then helpers_here else helpers_there (holds (lit " __GNUC__ && !__GNUC_STDC_INLINE__"))) ++ M.
Proof. intros Hk HM. rewrite (begin_lines_eq n Hw Hne), <- (app_nil_r (map (filled n) begin_lines)). apply helpers_go; [exact Hk|exact HM|reflexivity]. Qed.
Lemma mac_undef k M l ls m r R : directive l = Some (lit "undef", m, r) -> mac k (if on k then forgotten m M else M) ls R -> mac k M (l :: ls) R.
Proof. intros H E. cbn [macros]. rewrite H. exact E. Qed.
Lemma mac_body k M b ls R : Forall (fun l => directive l = None) b -> mac k M ls R -> mac k M (b ++ ls) R.
Proof. intros Hb E. induction Hb as [|l b Hl _ IH]; [exact E|]. cbn [app]. apply mac_none; [exact Hl|exact IH]. Qed.
Lemma header_leaves k M b : on k = true -> Forall (fun s => has M (n ++ s) = false) [lit "_H"; lit "_VAR"; lit "_VAR_INIT"; lit "_INL"] ->
  (forall x, b <> x ++ [92]) -> Forall (fun l => directive l = None) (lines_of (b ++ [10])) ->
  macros holds k M (lines_of (header n b)) = ([@"_H"], []) :: M.
Proof.
  intros Hk HM Hb Hl. rewrite (header_lines n Hw Hne b Hb). apply helpers_go; [exact Hk|exact HM|]. apply mac_body; [exact Hl|].
  inversion HM as [|? ? Mh HM1]; subst. inversion HM1 as [|? ? Mv HM2]; subst. inversion HM2 as [|? ? Mi HM3]; subst. inversion HM3 as [|? ? Ml _]; subst. clear HM HM1 HM2 HM3.
  apply forgotten_free in Mh, Mv, Mi, Ml.
  unfold end_lines. cbn [map]. rewrite <- (app_nil_r M) at 2.
  step. do 3 (eapply mac_undef; [dir|]; cbn [forallb andb]; rewrite ?Hk). step. cbn [macros].
  change [95; 86; 65; 82; 95; 73; 78; 73; 84] with (lit "_VAR_INIT"). change [95; 86; 65; 82] with (lit "_VAR"). change [95; 73; 78; 76] with (lit "_INL").
  rewrite app_nil_r. unfold helpers_here, helpers_there. destruct (has M [@"_IMPLEMENT"]); cbn [app]; repeat (rewrite ?forgotten_cons, ?Mh, ?Mv, ?Mi, ?Ml; names); reflexivity.
Qed.
Lemma implemented k M : on k = true -> Forall (fun s => has M (n ++ s) = false) [lit "_H"; lit "_VAR"; lit "_VAR_INIT"; lit "_INL"] ->
  macros holds k M (lines_of ((10 :: lit "#define " ++ n ++ lit "_IMPLEMENT" ++ [10]) ++ 10 :: filled n header_begin ++ [10])) = helpers_here ++ ([@"_IMPLEMENT"], []) :: forgotten [@"_IMPLEMENT"] M.
Proof.
  intros Hk HM.
  assert (El : lines_of ((10 :: lit "#define " ++ n ++ lit "_IMPLEMENT" ++ [10]) ++ 10 :: filled n header_begin ++ [10]) = map (filled n) [[]; lit "#define @_IMPLEMENT"] ++ lines_of (10 :: filled n header_begin ++ [10])).
  { generalize (10 :: filled n header_begin ++ [10]). intros r.
    replace ((10 :: lit "#define " ++ n ++ lit "_IMPLEMENT" ++ [10]) ++ r) with ((10 :: lit "#define " ++ n ++ lit "_IMPLEMENT") ++ 10 :: r) by (cbn [app]; rewrite <- !app_assoc; reflexivity).
    unfold lines_of at 1. rewrite lines_break.
    - f_equal. change [[]; lit "#define @_IMPLEMENT"] with (lines_from [] (10 :: lit "#define @_IMPLEMENT" ++ [10])). rewrite <- (lines_filled n Hw Hne). f_equal. rewrite !(app_comm_cons _ _ 10), !filled_more. change (filled n (lit "#define @_IMPLEMENT")) with (lit "#define " ++ n ++ lit "_IMPLEMENT"). reflexivity.
    - intros x E. change (10 :: lit "#define " ++ n ++ lit "_IMPLEMENT") with (10 :: lit "#define " ++ n ++ lit "_IMPLEMEN" ++ [84]) in E. rewrite !app_assoc, app_comm_cons in E. apply app_inj_tail in E as [_ E]. discriminate E. }
  rewrite El. let l := eval vm_compute in (lit "#define @_IMPLEMENT") in change (lit "#define @_IMPLEMENT") with l. cbn [map app]. do 2 step. rewrite Hk.
  set (M1 := (_, _) :: _). change (([@"_IMPLEMENT"], []) :: forgotten [@"_IMPLEMENT"] M) with M1.
  assert (E1 : has M1 [@"_IMPLEMENT"] = true) by (unfold M1; cbn [existsb fst]; rewrite teqb_head; reflexivity).
  rewrite helpers_of, E1; [reflexivity|exact Hk|].
  eapply Forall_impl; [|apply Forall_forall; intros s Hs; exact (conj Hs (proj1 (Forall_forall _ _) HM s Hs))].
  cbn beta. intros s [Hs H]. unfold M1. cbn [existsb fst]. change (n ++ [95; 73; 77; 80; 76; 69; 77; 69; 78; 84]) with [@"_IMPLEMENT"].
  assert (D : lit "_IMPLEMENT" <> s) by (cbn [In] in Hs; intros <-; repeat (destruct Hs as [Hs|Hs]; [discriminate Hs|]); exact Hs).
  rewrite teqb_head, has_forgotten, H by exact D. replace (teqb (lit "_IMPLEMENT") s) with false by (symmetry; apply teqb_neq, D). reflexivity.
Qed.
End Macros.
Section Header.
Variables (holds : text -> bool) (n N : text).
Hypothesis Hn : identifier n.
Hypothesis H45 : ~ In 45 n.
Hypothesis HN : Forall2 TextSpec.to_capital n N.
Definition helpers_are := helpers_of holds N (proj1 (capital_word n N Hn H45 HN)) (proj2 (capital_word n N Hn H45 HN)).
Definition after_header := header_leaves holds N (proj1 (capital_word n N Hn H45 HN)) (proj2 (capital_word n N Hn H45 HN)).
Definition implement_makes := implemented holds N (proj1 (capital_word n N Hn H45 HN)) (proj2 (capital_word n N Hn H45 HN)).
End Header.
Lemma macros_case :
  macros (fun _ => true) [] [(lit "FOO_IMPLEMENT", [])] (lines_of (10 :: filled (lit "FOO") header_begin ++ [10])) =
    [ (lit "FOO_INL", []); (lit "FOO_VAR_INIT", lit "( decl, ... ) 	decl = __VA_ARGS__"); (lit "FOO_VAR", lit "( decl ) 	decl"); (lit "FOO_H", []); (lit "FOO_IMPLEMENT", []) ] /\
  macros (fun _ => false) [] [(lit "BAR_IMPLEMENT", [])] (lines_of (10 :: filled (lit "FOO") header_begin ++ [10])) =
    [ (lit "FOO_INL", lit " 	inline"); (lit "FOO_VAR_INIT", lit "( decl, ... ) 	extern decl"); (lit "FOO_VAR", lit "( decl ) 	extern decl"); (lit "FOO_H", []); (lit "BAR_IMPLEMENT", []) ] /\
  macros (fun _ => true) [] [(lit "BAR_IMPLEMENT", [])] (lines_of (header (lit "FOO") cpp_body)) = [ (lit "FOO_H", []); (lit "BAR_IMPLEMENT", []) ].
Proof. split; [|split]; vm_compute; reflexivity. Qed.
