(** * Whole runs over sources with functions that call functions, to any depth *)
From Coq Require Import List NArith ZArith Bool String Lia ZifyBool ZifyNat ZifyN.
From Verif Require Import PyStr PyStrFacts Ast Lex LexSpec LexFacts LexFacts2 LexCases Parse Final FinalSpec FinalCases Shell ShellSpec Eval Builtin EnvSpec EvalSpec EvalFacts TrimSpec TrimCases TextFacts CodecFacts Pp PpSpec PpCases ProtectCases ExprSpec ExprShow DocSpec ExprCases CoreSpec CoreFacts CoreCases RunSpec RunFacts RunFacts2 RunCases RecurCases UseSpec.
Import ListNotations.
Open Scope list_scope.
Open Scope N_scope.

(** ** A tower of functions, each of which calls the one before *)
(* ($set f0 \x.($ add x 1))($set f1 \x.($ add ($ f0 x) 1)) ... ($ fn k) *)
Section Tower.
Variable nm : nat -> text.
Definition step (i : nat) : expr := app2 (lit "add") [match i with O => var1 (lit "x") | S j => app2 (nm j) [var1 (lit "x")] end; ENum 1].
Definition tower_set (i : nat) : construct := CSet (BName (nm i)) (ELambda [Param [] (lit "x") None] (step i)).
Fixpoint sets (i m : nat) (rest : list construct) : list construct := match m with O => rest | S m => tower_set i :: sets (S i) m rest end.
Definition tower (n : nat) (k : Z) : list construct := sets 0 (S n) [rec_call (nm n) k].
Definition tower_source (n : nat) (k : Z) : text := flat_map show_construct (tower n k).
Definition tower_contents (n : nat) (k : Z) : contents := map (fun c => inr (tree_construct c)) (tower n k).
Fixpoint levels (i m : nat) : text :=
  match m with
  | O => []
  | S m => lit "($set " ++ nm i ++ lit " \x.($ add " ++ match i with O => lit "x" | S j => lit "($ " ++ nm j ++ lit " x)" end ++ lit " 1))" ++ levels (S i) m
  end.
Lemma set_is i : show_construct (tower_set i) = lit "($set " ++ nm i ++ lit " \x.($ add " ++ match i with O => lit "x" | S j => lit "($ " ++ nm j ++ lit " x)" end ++ lit " 1))".
Proof.
  unfold tower_set, step, app2, var1. cbn [show_construct show show_binder show_param flat_map map star fst snd show_var app].
  change (Z_text 1) with (lit "1"). destruct i as [|j]; cbn [show show_var flat_map map star fst snd app];
  repeat match goal with |- context [lit ?s] => let x := eval vm_compute in (lit s) in change (lit s) with x end;
  cbn [app]; rewrite ?app_nil_r; repeat (rewrite <- app_assoc; cbn [app]); reflexivity.
Qed.
Lemma tower_source_is n k : tower_source n k = levels 0 (S n) ++ lit "($ " ++ nm n ++ lit " " ++ Z_text k ++ lit ")".
Proof.
  unfold tower_source, tower. generalize 0%nat at 1 2. intros i.
  assert (E : show_construct (rec_call (nm n) k) = lit "($ " ++ nm n ++ lit " " ++ Z_text k ++ lit ")").
  { unfold rec_call, app2. cbn [show_construct show flat_map map star fst snd show_var app]. rewrite app_nil_r.
    repeat match goal with |- context [lit ?s] => let x := eval vm_compute in (lit s) in change (lit s) with x end. cbn [app]. reflexivity. }
  generalize (S n). intros m. revert i. induction m as [|m IH]; intros i; cbn [sets flat_map levels].
  - rewrite E, app_nil_r. reflexivity.
  - rewrite IH, set_is. rewrite <- !app_assoc. reflexivity.
Qed.
Hypothesis Hid : forall i, identifier (nm i).
Lemma set_wf i : construct_ok false SkipNone (tower_set i).
Proof.
  apply co_set; [apply Hid|]. apply wf_lambda; [discriminate|apply Forall_cons; [apply wf_par; [constructor|ident|discriminate]|constructor]| |reflexivity].
  apply app2_wf; [ident|]. apply Forall_cons; [|apply Forall_cons; [split; [apply wf_num|reflexivity]|constructor]].
  destruct i as [|j]; (split; [|reflexivity]); [apply var1_wf; ident|]. apply app2_wf; [apply Hid|]. apply Forall_cons; [split; [apply var1_wf; ident|reflexivity]|constructor].
Qed.
Lemma tower_document n k : document false SkipNone (tower_source n k) (tower_contents n k).
Proof.
  assert (W2 : construct_ok false SkipNone (rec_call (nm n) k)).
  { apply co_expr; [|exact Logic.I]. apply app2_wf; [apply Hid|]. apply Forall_cons; [split; [apply wf_num|reflexivity]|constructor]. }
  assert (W : Forall (construct_ok false SkipNone) (tower n k)).
  { unfold tower. generalize 0%nat (S n). intros i m. revert i. induction m as [|m IH]; intros i; cbn [sets]; constructor; [exact W2|constructor|apply set_wf|apply IH]. }
  unfold tower_source, tower_contents. induction W as [|c l Hc _ IH]; cbn [flat_map map]; [apply wr_end; exact Logic.I|]. apply wr_construct; [exact Hc|exact IH].
Qed.

(** what the functions mean *)
Definition body (i : nat) : node := call (lit "add") [match i with O => name (lit "x") | S j => call (nm j) [name (lit "x")] end; NInt 1].
Fixpoint stack (i : nat) : defs := match i with O => [] | S j => (nm j, EChain [lit "x"] (body j)) :: stack j end.
Hypothesis Hinj : forall i j, nm i = nm j -> i = j.
Hypothesis Hx : forall i, nm i <> lit "x".
Hypothesis Hadd : forall i, nm i <> lit "add".
Hypothesis Hout : forall i, nm i <> lit "__OUTPUT_FILE__".
Lemma stack_names i m : In m (names (stack i)) -> exists j, (j < i)%nat /\ m = nm j.
Proof. induction i as [|i IH]; cbn [stack names map fst]; [intros []|]. intros [<-|H]; [exists i; split; [lia|reflexivity]|]. destruct (IH H) as (j & Hj & ->). exists j. split; [lia|reflexivity]. Qed.
Lemma stack_params i m : In m (chain_params (stack i)) -> m = lit "x".
Proof. induction i as [|i IH]; cbn [stack chain_params app]; [intros []|]. intros [<-|H]; [reflexivity|apply IH, H]. Qed.
Lemma stack_split i : forall l f ps b r, stack i = l ++ (f, EChain ps b) :: r -> exists j, f = nm j /\ (forall m, In m (names l) -> exists j', (j < j')%nat /\ m = nm j').
Proof.
  induction i as [|i IH]; intros l f ps b r E; [destruct l; discriminate E|]. cbn [stack] in E. destruct l as [|[k u] l]; cbn [app] in E.
  - injection E as E _ _ _. exists i. split; [symmetry; exact E|]. intros m [].
  - injection E as Ek _ H1. destruct (IH _ _ _ _ _ H1) as (j & -> & Hl). exists j. split; [reflexivity|]. intros m [<-|H]; [|apply Hl, H]. cbn [fst]. exists i. split; [|symmetry; exact Ek].
    assert (K : In (nm j) (names (stack i))) by (rewrite H1; unfold names; rewrite map_app; apply in_or_app; right; left; reflexivity). apply stack_names in K as (j' & Hj & E'). apply Hinj in E'. lia.
Qed.
Lemma stack_holds i : chains_hold (stack i).
Proof.
  intros l f ps b r E. destruct (stack_split _ _ _ _ _ _ E) as (j & -> & Hl). split; [|intros K; apply stack_params in K; exact (Hx j K)].
  intros K. destruct (Hl _ K) as (j' & Hj & E'). apply Hinj in E'. lia.
Qed.
Lemma body_apart i : choices_apart (body i).
Proof. destruct i; cbn; tauto. Qed.
Lemma body_value i : forall P later used z, (forall m, In m P -> m = lit "x") -> (forall m, In m later -> exists j, m = nm j) ->
  value run_ec (InChain P later used (stack i) [(lit "x", NInt z)]) (body i) (NInt (z + Z.of_nat i + 1)).
Proof.
  assert (Hv : forall P later used g z, value run_ec (InChain P later used g [(lit "x", NInt z)]) (name (lit "x")) (NInt z)) by (intros; apply VA_name; cbn [values_at app]; apply at_front).
  induction i as [|i IH]; intros P later used z HP Hl; unfold body.
  - apply VA_builtin with (vs := [NInt z; NInt 1]).
    + apply AV_more; [apply Hv|]. apply AV_more; [apply VA_constant, int_constant|apply AV_end].
    + intros K. cbn [known_at stack names map s_txt raw] in K. rewrite !in_app_iff in K. destruct K as [K|[K|[]]]; [apply HP in K; discriminate K|]. destruct (Hl _ K) as (j & E). symmetry in E. exact (Hadd j E).
    + apply two_ints with (f := b_add); [intros imported; reflexivity|intros st; cbn [b_add b_int2]; replace (z + Z.of_nat 0 + 1)%Z with (z + 1)%Z by lia; reflexivity].
  - apply VA_builtin with (vs := [NInt (z + Z.of_nat i + 1); NInt 1]).
    + apply AV_more; [|apply AV_more; [apply VA_constant, int_constant|apply AV_end]].
      eapply VA_use with (l := []) (f := nm i) (before := stack i) (vs := [NInt z]); [reflexivity|reflexivity|apply AV_more; [apply Hv|apply AV_end]|reflexivity| | |apply body_apart|].
      * constructor; [|constructor]. intros _. exists (RList []), (raw (lit "x")). split; reflexivity.
      * constructor; [exact Logic.I|constructor].
      * apply IH; [exact HP|]. intros m K. apply in_app_iff in K as [K|[<-|[]]]; [apply Hl, K|eauto].
    + intros K. cbn [known_at s_txt raw] in K. rewrite !in_app_iff in K. destruct K as [K|[K|K]]; [apply HP in K; discriminate K| |apply stack_names in K as (j & _ & E); symmetry in E; exact (Hadd j E)].
      destruct (Hl _ K) as (j & E). symmetry in E. exact (Hadd j E).
    + apply two_ints with (f := b_add); [intros imported; reflexivity|intros st; cbn [b_add b_int2]; replace (z + Z.of_nat (S i) + 1)%Z with (z + Z.of_nat i + 1 + 1)%Z by lia; reflexivity].
Qed.
Lemma set_defines i : defines run_ec (stack i) (LAtom (raw (nm i))) (NLambda [([], raw (lit "x"), NNone)] (body i)) [(nm i, EChain [lit "x"] (body i))].
Proof.
  eapply DF_chain with (ps := [lit "x"]) (vs := [NInt 0]) (dflt := []).
  - apply (PA_plain run_ec ((nm i, EOpen) :: stack i) (raw (lit "x")) [] [] []). constructor.
  - constructor; [intros []|constructor].
  - discriminate.
  - intros [K|[]]; discriminate K.
  - reflexivity.
  - constructor; [apply int_constant|constructor].
  - apply body_apart.
  - apply (stack_holds (S i)).
  - apply body_value; [intros m [<-|K]; [reflexivity|apply stack_params in K; exact K]|intros m [<-|[]]; exists i; reflexivity].
Qed.
Lemma tree_set i : tree_construct (tower_set i) = NSet (LAtom (raw (nm i))) (NLambda [([], raw (lit "x"), NNone)] (body i)).
Proof. destruct i; reflexivity. Qed.
Lemma tower_page n k : page run_ec [] (IndStr []) untold (runs true [] (tower_contents n k)) (Z_text (k + Z.of_nat n + 1)) untold.
Proof.
  unfold tower_contents, tower. set (last := tree_construct (rec_call (nm n) k)).
  assert (E : forall m i b, runs b [] (map (fun c => inr (tree_construct c)) (sets i m [rec_call (nm n) k])) = map (fun j => tree_construct (tower_set j)) (List.seq i m) ++ [last]).
  { induction m as [|m IH]; intros i b; cbn [sets map runs run List.seq app]; [destruct b; reflexivity|]. rewrite IH. destruct b; reflexivity. }
  rewrite E. clear E.
  enough (Q : forall m i, (i + m = S n)%nat -> page run_ec (stack i) (IndStr []) untold (map (fun j => tree_construct (tower_set j)) (List.seq i m) ++ [last]) (Z_text (k + Z.of_nat n + 1)) untold) by (apply (Q (S n) 0%nat); lia).
  induction m as [|m IH]; intros i Hi; cbn [List.seq map app].
  - replace i with (S n) by lia. unfold last. change (tree_construct (rec_call (nm n) k)) with (call (nm n) [NInt k]).
    rewrite <- (app_nil_r (Z_text _)). eapply PG_applied; [|apply SH_value, VT_int|apply visible_line, visible_number|apply PG_end].
    eapply VA_chain with (later := []) (f := nm n) (before := stack n) (vs := [NInt k]); [reflexivity|apply stack_holds|reflexivity|apply AV_more; [apply VA_constant, int_constant|apply AV_end]|reflexivity|apply body_apart|].
    apply body_value; [intros q K; apply (stack_params (S n)) in K; exact K|intros q [<-|[]]; exists n; reflexivity].
  - rewrite tree_set. assert (T : exists y r, map (fun j => tree_construct (tower_set j)) (List.seq (S i) m) ++ [last] = y :: r /\ trimmed_next (IndStr []) (y :: r) = y :: r).
    { destruct m as [|m]; cbn [List.seq map app]; [eexists _, _; split; reflexivity|]. rewrite tree_set. eexists _, _; split; reflexivity. }
    destruct T as (y & r & E & T). specialize (IH (S i) ltac:(lia)). rewrite E in *.
    eapply PG_set with (es := [(nm i, EChain [lit "x"] (body i))]); [intros [K|[]]; exact (Hout i K)|apply set_defines|]. rewrite T. exact IH.
Qed.
Lemma name_plain i : Forall (fun c => c <> 13) (nm i).
Proof.
  apply Forall_forall. intros c K ->. pose proof (Hid i) as H. destruct (nm i) as [|d u]; [destruct K|]. destruct H as [Hd Hu]. rewrite Forall_forall in Hu.
  destruct K as [->|K]; [revert Hd|specialize (Hu _ K); revert Hu]; unfold name_char, letter, decimal_digit; lia.
Qed.
Lemma tower_run n k : exists n0, forall fuel, (n0 <= fuel)%nat ->
  pp world0 run_config 1 fuel (levels 0 (S n) ++ lit "($ " ++ nm n ++ lit " " ++ Z_text k ++ lit ")") (Some (lit "a.yu-c")) (Some (lit "a.c")) process0 =
    Ok (PP true (Z_text (k + Z.of_nat n + 1)) None None false 0).
Proof.
  rewrite <- tower_source_is.
  destruct (document_run world0 run_config 0 (tower_source n k) (tower_source n k) (tower_contents n k) (Z_text (k + Z.of_nat n + 1)) untold (Some (lit "a.yu-c")) (Some (lit "a.c")) process0) with (5 := tower_page n k) as [n0 H].
  - apply unified_id. rewrite tower_source_is. intros K.
    assert (Hn : forall i, ~ In 13 (nm i)) by (intros i J; pose proof (name_plain i) as Q; rewrite Forall_forall in Q; exact (Q _ J eq_refl)).
    assert (Hl : forall s, existsb (N.eqb 13) s = false -> ~ In 13 s) by (intros s Hs J; assert (existsb (N.eqb 13) s = true) by (apply existsb_exists; exists 13; split; [exact J|reflexivity]); congruence).
    assert (Hv : forall m i, ~ In 13 (levels i m)).
    { induction m as [|m IH]; intros i; cbn [levels]; [intros []|]. rewrite !in_app_iff. intros [J|[J|[J|[J|[J|J]]]]]; [revert J; apply Hl; reflexivity|exact (Hn _ J)|revert J; apply Hl; reflexivity| |revert J; apply Hl; reflexivity|exact (IH _ J)].
      destruct i as [|i]; [revert J; apply Hl; reflexivity|]. rewrite !in_app_iff in J. destruct J as [J|[J|J]]; [revert J; apply Hl; reflexivity|exact (Hn _ J)|revert J; apply Hl; reflexivity]. }
    rewrite !in_app_iff in K. destruct K as [K|[K|[K|[K|[K|K]]]]]; [exact (Hv _ _ K)|revert K; apply Hl; reflexivity|exact (Hn _ K)|revert K; apply Hl; reflexivity| |revert K; apply Hl; reflexivity].
    pose proof (visible_number k) as V. rewrite Forall_forall in V. specialize (V _ K). unfold visible in V. lia.
  - apply tower_document.
  - discriminate.
  - reflexivity.
  - exists n0. intros fuel Hn. rewrite (H fuel Hn). unfold yielded. change (k_reduce run_config) with false. rewrite reduce_off, visible_steady by apply visible_number. reflexivity.
Qed.
End Tower.

(** names of any number: f, ff, fff and so on *)
Definition fs (i : nat) : text := repeat 102 (S i).
Lemma fs_identifier i : identifier (fs i).
Proof. split; [unfold letter; lia|]. apply Forall_forall. intros c K. apply repeat_spec in K as ->. unfold name_char, letter. lia. Qed.
Lemma fs_different i j : fs i = fs j -> i = j.
Proof. intros E. apply (f_equal (@List.length N)) in E. unfold fs in E. rewrite !repeat_length in E. lia. Qed.
Lemma fs_not i t : (exists c r, t = c :: r /\ c <> 102) -> fs i <> t.
Proof. intros (c & r & -> & Hc) E. injection E as E _. congruence. Qed.
Lemma fs_case : (forall i, identifier (fs i)) /\ (forall i j, fs i = fs j -> i = j) /\ (forall i, ~ In (fs i) [lit "x"; lit "add"; lit "__OUTPUT_FILE__"]) /\
  levels fs 0 3 = lit "($set f \x.($ add x 1))($set ff \x.($ add ($ f x) 1))($set fff \x.($ add ($ ff x) 1))".
Proof.
  split; [exact fs_identifier|]. split; [exact fs_different|]. split; [|reflexivity].
  intros i [K|[K|[K|[]]]]; symmetry in K; revert K; apply fs_not; eexists _, _; (split; [reflexivity|discriminate]).
Qed.
Lemma tower_runs nm n k : (forall i, identifier (nm i)) -> (forall i j, nm i = nm j -> i = j) -> (forall i, ~ In (nm i) [lit "x"; lit "add"; lit "__OUTPUT_FILE__"]) ->
  exists n0, forall fuel, (n0 <= fuel)%nat ->
  pp world0 run_config 1 fuel (levels nm 0 (S n) ++ lit "($ " ++ nm n ++ lit " " ++ Z_text k ++ lit ")") (Some (lit "a.yu-c")) (Some (lit "a.c")) process0 =
    Ok (PP true (Z_text (k + Z.of_nat n + 1)) None None false 0).
Proof. intros H1 H2 H3. apply tower_run; try assumption; intros i E; apply (H3 i); cbn [In]; auto. Qed.
