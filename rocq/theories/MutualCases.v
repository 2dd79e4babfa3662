(** * Functions that call each other, and what a call yields *)
From Coq Require Import List NArith ZArith Bool String Lia ZifyBool ZifyNat ZifyN.
From Verif Require Import PyStr PyStrFacts Ast Lex LexSpec LexFacts LexFacts2 LexCases Parse Final FinalSpec FinalCases Shell ShellSpec Eval Builtin EnvSpec EvalSpec EvalFacts TrimSpec TrimCases TextFacts CodecFacts Pp PpSpec PpCases ProtectCases ExprSpec ExprShow DocSpec ExprCases CoreSpec CoreFacts CoreCases RunSpec RunFacts RunFacts2 RunCases RecurCases.
Import ListNotations.
Open Scope list_scope.
Open Scope N_scope.

(** ** What a call of a function that decides yields *)
Lemma cases_run w cfg d t t' input output pr n q r h x c a b v vc y z u out :
  unified t t' -> document (is_python output) (skip_of cfg (is_python output)) t'
    [inr (NSet (LAtom n) (NLambda [([], q, NNone)] (NApply (NCond c a b) [] [] None 0))); inr (NApply (NVar r h) [x] [] None 0)] ->
  (is_python output = true -> no_magic is_word t') -> k_browse cfg = false ->
  s_txt h = s_txt n -> s_txt n <> lit "__OUTPUT_FILE__" -> s_txt q <> lit "..." -> s_txt q <> lit "__va_args__" ->
  let ec := run_ectx w cfg input output pr in
  let f := (s_txt n, ECases (s_txt q) c a b) in
  needs ec (s_txt q) c -> value ec (InText [f]) x v -> constant_value v ->
  value ec (InBody [s_txt q; s_txt n] [(s_txt q, v)]) c vc -> selects vc a b y ->
  value ec (InText [(s_txt q, EValue v); f]) y z -> value_text z u -> placed ec [] u out ->
  exists n0, forall k, (n0 <= k)%nat ->
    pp w cfg (S d) k t input output pr = Ok (PP true (replace_steady (reduce_emptiness (k_reduce cfg) out)) None None false 0).
Proof.
  intros Hu Hd Hm Hb Eh Ho H1 H2 ec f Hn Hx Hv Hc Hs Hy Ht Hp. subst f.
  apply (document_run w cfg d t t' _ out untold input output pr Hu Hd Hm Hb). fold ec.
  change (runs true [] _) with [NSet (LAtom n) (NLambda [([], q, NNone)] (NApply (NCond c a b) [] [] None 0)); NApply (NVar r h) [x] [] None 0].
  eapply PG_set with (es := [(s_txt n, ECases (s_txt q) c a b)]); [intros [K|[]]; exact (Ho K)| |].
  - apply DF_cases with (v := v) (vc := vc); assumption.
  - cbn [app trimmed_next]. replace out with (out ++ []) by apply app_nil_r.
    eapply PG_applied; [|apply SH_value, Ht|exact Hp|apply PG_end].
    eapply VA_cases with (later := []) (before := []); [reflexivity|intros []|exact Eh|exact Hx|exact Hc|exact Hs|exact Hy|exact Ht].
Qed.

(** ** Two functions that call each other *)
(* ($set even \n.($ ($ odd ($ sub n 1)) ? n | 1))($set odd \n.($ ($ even ($ sub n 1)) ? n | 0))($ even k) *)
Definition turn (f g : string) (base : Z) : construct :=
  CSet (BName (lit f)) (ELambda [Param [] (lit "n") None] (EApp false false (ECond (v "n") (app1 g [less (lit "n")]) (Some (ENum base))) [] [])).
Definition even_source (k : Z) : text := show_construct (turn "even" "odd" 1) ++ show_construct (turn "odd" "even" 0) ++ show_construct (rec_call (lit "even") k).
Definition even_contents (k : Z) : contents := [inr (tree_construct (turn "even" "odd" 1)); inr (tree_construct (turn "odd" "even" 0)); inr (tree_construct (rec_call (lit "even") k))].
Lemma even_source_is k : even_source k =
  lit "($set even \n.($ ($ odd ($ sub n 1)) ? n | 1))($set odd \n.($ ($ even ($ sub n 1)) ? n | 0))($ even " ++ Z_text k ++ lit ")".
Proof.
  unfold even_source. replace (show_construct (rec_call (lit "even") k)) with (lit "($ even " ++ Z_text k ++ lit ")"); [reflexivity|].
  cbn [show_construct rec_call show app2 map v fst snd flat_map star app show_var]. rewrite app_nil_r. reflexivity.
Qed.
Lemma turn_wf f g base : identifier (lit f) -> identifier (lit g) -> construct_ok false SkipNone (turn f g base).
Proof.
  intros Hf Hg. apply co_set; [exact Hf|]. apply wf_lambda; [discriminate|apply Forall_cons; [apply wf_par; [constructor|ident|discriminate]|constructor]| |reflexivity].
  apply wf_app; [|discriminate|constructor|constructor]. apply wf_cond; [unfold v; well| |reflexivity|reflexivity|intros e [= <-]; apply wf_num].
  apply app1_wf; [exact Hg|]. apply Forall_cons; [split; [apply less_wf; ident|reflexivity]|constructor].
Qed.
Lemma even_document k : document false SkipNone (even_source k) (even_contents k).
Proof.
  assert (W : construct_ok false SkipNone (rec_call (lit "even") k)).
  { apply co_expr; [|exact Logic.I]. apply app2_wf; [ident|]. apply Forall_cons; [split; [apply wf_num|reflexivity]|constructor]. }
  unfold even_source, even_contents. rewrite <- (app_nil_r (show_construct (rec_call (lit "even") k))).
  apply wr_construct; [apply turn_wf; ident|]. apply wr_construct; [apply turn_wf; ident|]. apply wr_construct; [exact W|]. apply wr_end. exact Logic.I.
Qed.
Definition again (g : string) : node := call (lit g) [call (lit "sub") [name (lit "n"); NInt 1]].
Definition both : defs := [(lit "odd", ECases (lit "n") (name (lit "n")) (again "even") (NInt 0)); (lit "even", ECases (lit "n") (name (lit "n")) (again "odd") (NInt 1))].
Lemma less_both l z : value run_ec (InText ((lit "n", EValue (NInt z)) :: pending (lit "n") l ++ both)) (call (lit "sub") [name (lit "n"); NInt 1]) (NInt (z - 1)).
Proof.
  apply VA_builtin with (vs := [NInt z; NInt 1]).
  - apply AV_more; [apply top_value|]. apply AV_more; [apply VA_constant, int_constant|apply AV_end].
  - change ((lit "n", EValue (NInt z)) :: pending (lit "n") l ++ both) with (pending (lit "n") (z :: l) ++ both). 
    assert (K : ~ In (lit "sub") (map fst (pending (lit "n") (z :: l) ++ both))); [|exact K]. intros K. rewrite map_app in K.
    apply in_app_iff in K as [K|[K|[K|[]]]]; [apply (pending_names (lit "n") (z :: l)) in K; discriminate K|discriminate K|discriminate K].
  - apply two_ints with (f := b_sub); [intros imported; reflexivity|intros st; reflexivity].
Qed.
Definition parity (k : nat) : Z := if Nat.even k then 1 else 0.
Lemma both_values k : forall l x, value run_ec (InText (pending (lit "n") l ++ both)) x (NInt (Z.of_nat k)) ->
  value run_ec (InText (pending (lit "n") l ++ both)) (call (lit "even") [x]) (NInt (parity k)) /\
  value run_ec (InText (pending (lit "n") l ++ both)) (call (lit "odd") [x]) (NInt (1 - parity k)).
Proof.
  assert (Hn : forall l m, m <> lit "n" -> ~ In m (names (pending (lit "n") l))) by (intros l m Hm K; apply pending_names in K; exact (Hm K)).
  assert (He : forall l, ~ In (lit "even") (names (pending (lit "n") l ++ [(lit "odd", ECases (lit "n") (name (lit "n")) (again "even") (NInt 0))]))).
  { intros l. apply pending_free; discriminate. }
  assert (Hcond : forall z l r, value run_ec (InBody l ((lit "n", NInt z) :: r)) (name (lit "n")) (NInt z)) by (intros z l r; apply VA_name; apply at_front).
  assert (El : forall l, pending (lit "n") l ++ both = (pending (lit "n") l ++ [(lit "odd", ECases (lit "n") (name (lit "n")) (again "even") (NInt 0))]) ++ (lit "even", ECases (lit "n") (name (lit "n")) (again "odd") (NInt 1)) :: []).
  { intros l. rewrite <- app_assoc. reflexivity. }
  induction k as [|k IH]; intros l x Hx; split.
  - eapply VA_cases with (before := []); [apply El|apply He|reflexivity|exact Hx|apply Hcond|split; [reflexivity|right; split; [right; left; reflexivity|reflexivity]]|apply VA_constant, int_constant|apply VT_int].
  - eapply VA_cases with (later := pending (lit "n") l); [reflexivity|apply Hn; discriminate|reflexivity|exact Hx|apply Hcond|split; [reflexivity|right; split; [right; left; reflexivity|reflexivity]]|apply VA_constant, int_constant|apply VT_int].
  - eapply VA_cases with (before := []) (y := again "odd"); [apply El|apply He|reflexivity|exact Hx|apply Hcond|split; [reflexivity|left; split; [apply not_zero; lia|reflexivity]]| |apply VT_int].
    change ((lit "n", EValue (NInt (Z.of_nat (S k)))) :: pending (lit "n") l ++ both) with (pending (lit "n") (Z.of_nat (S k) :: l) ++ both).
    replace (parity (S k)) with (1 - parity k)%Z by (unfold parity; rewrite Nat.even_succ, <- Nat.negb_even; destruct (Nat.even k); reflexivity).
    apply (IH (Z.of_nat (S k) :: l)). replace (NInt (Z.of_nat k)) with (NInt (Z.of_nat (S k) - 1)) by (f_equal; lia). apply less_both.
  - eapply VA_cases with (later := pending (lit "n") l) (y := again "even"); [reflexivity|apply Hn; discriminate|reflexivity|exact Hx|apply Hcond|split; [reflexivity|left; split; [apply not_zero; lia|reflexivity]]| |apply VT_int].
    change ((lit "n", EValue (NInt (Z.of_nat (S k)))) :: pending (lit "n") l ++ _) with (pending (lit "n") (Z.of_nat (S k) :: l) ++ both).
    replace (1 - parity (S k))%Z with (parity k)%Z by (unfold parity; rewrite Nat.even_succ, <- Nat.negb_even; destruct (Nat.even k); reflexivity).
    apply (IH (Z.of_nat (S k) :: l)). replace (NInt (Z.of_nat k)) with (NInt (Z.of_nat (S k) - 1)) by (f_equal; lia). apply less_both.
Qed.
Lemma even_page k : page run_ec [] (IndStr []) untold (runs true [] (even_contents (Z.of_nat k))) (Z_text (parity k)) untold.
Proof.
  change (runs true [] (even_contents (Z.of_nat k))) with
    [NSet (LAtom (raw (lit "even"))) (NLambda [([], raw (lit "n"), NNone)] (NApply (NCond (name (lit "n")) (again "odd") (NInt 1)) [] [] None 0));
     NSet (LAtom (raw (lit "odd"))) (NLambda [([], raw (lit "n"), NNone)] (NApply (NCond (name (lit "n")) (again "even") (NInt 0)) [] [] None 0)); call (lit "even") [NInt (Z.of_nat k)]].
  eapply PG_set with (es := [(lit "even", ECases (lit "n") (name (lit "n")) (again "odd") (NInt 1))]); [intros [H|[]]; discriminate H| |].
  { apply DF_cases with (n := raw (lit "even")) (q := raw (lit "n")) (v := NInt 1) (vc := NInt 1); [discriminate|discriminate|apply int_constant|apply ND_name; reflexivity|]. apply VA_name. apply at_front. }
  cbn [app trimmed_next].
  eapply PG_set with (es := [(lit "odd", ECases (lit "n") (name (lit "n")) (again "even") (NInt 0))]); [intros [H|[]]; discriminate H| |].
  { apply DF_cases with (n := raw (lit "odd")) (q := raw (lit "n")) (v := NInt 1) (vc := NInt 1); [discriminate|discriminate|apply int_constant|apply ND_name; reflexivity|]. apply VA_name. apply at_front. }
  cbn [app trimmed_next call]. replace (Z_text (parity k)) with (Z_text (parity k) ++ []) by apply app_nil_r.
  eapply PG_applied; [apply (both_values k []), VA_constant, int_constant|apply SH_value, VT_int|apply visible_line, visible_number|apply PG_end].
Qed.
Lemma even_run k : exists n0, forall n, (n0 <= n)%nat ->
  pp world0 run_config 1 n (even_source (Z.of_nat k)) (Some (lit "a.yu-c")) (Some (lit "a.c")) process0 = Ok (PP true (Z_text (if Nat.even k then 1 else 0)) None None false 0).
Proof.
  destruct (document_run world0 run_config 0 (even_source (Z.of_nat k)) (even_source (Z.of_nat k)) (even_contents (Z.of_nat k)) (Z_text (parity k)) untold (Some (lit "a.yu-c")) (Some (lit "a.c")) process0) with (5 := even_page k) as [n0 H].
  - apply unified_id. rewrite even_source_is. intros K. apply in_app_iff in K as [K|K]; [revert K; vm_compute; intuition discriminate|]. apply in_app_iff in K as [K|K]; [|revert K; vm_compute; intuition discriminate].
    revert K. apply number_no_return.
  - apply even_document.
  - discriminate.
  - reflexivity.
  - exists n0. intros n Hn. rewrite (H n Hn). unfold yielded. change (k_reduce run_config) with false. rewrite reduce_off, visible_steady by apply visible_number. reflexivity.
Qed.
(** ** An instance of the first theorem *)
(* ($set f \n.($ ($ mul n n) ? ($ sub n 3) | 0))($ f 12) *)
Definition pick_set : construct := CSet (BName (lit "f")) (ELambda [Param [] (lit "n") None]
  (EApp false false (ECond (app1 "sub" [v "n"; ENum 3]) (app1 "mul" [v "n"; v "n"]) (Some (ENum 0))) [] [])).
Definition pick_source : text := show_construct pick_set ++ show_construct (rec_call (lit "f") 12).
Lemma pick_source_is : pick_source = lit "($set f \n.($ ($ mul n n) ? ($ sub n 3) | 0))($ f 12)".
Proof. vm_compute. reflexivity. Qed.
Lemma pick_case : let ec := run_ec in
  let c := call (lit "sub") [name (lit "n"); NInt 3] in let a := call (lit "mul") [name (lit "n"); name (lit "n")] in
  let f := (lit "f", ECases (lit "n") c a (NInt 0)) in
  document false SkipNone pick_source
    [inr (NSet (LAtom (raw (lit "f"))) (NLambda [([], raw (lit "n"), NNone)] (NApply (NCond c a (NInt 0)) [] [] None 0))); inr (NApply (name (lit "f")) [NInt 12] [] None 0)] /\
  needs ec (lit "n") c /\ value ec (InText [f]) (NInt 12) (NInt 12) /\ constant_value (NInt 12) /\
  value ec (InBody [lit "n"; lit "f"] [(lit "n", NInt 12)]) c (NInt 9) /\ selects (NInt 9) a (NInt 0) a /\
  value ec (InText [(lit "n", EValue (NInt 12)); f]) a (NInt 144) /\ value_text (NInt 144) (lit "144") /\ placed ec [] (lit "144") (lit "144").
Proof.
  intros ec c a f. split; [|split; [|split; [|split; [|split; [|split; [|split; [|split]]]]]]].
  - assert (W1 : construct_ok false SkipNone pick_set).
    { apply co_set; [cbn [binder_ok]; ident|]. apply wf_lambda; [discriminate|apply Forall_cons; [apply wf_par; [constructor|ident|discriminate]|constructor]| |reflexivity].
      apply wf_app; [|discriminate|constructor|constructor]. apply wf_cond; [| |reflexivity|reflexivity|intros e [= <-]; apply wf_num].
      - apply app1_wf; [ident|]. apply Forall_cons; [split; [unfold v; well|reflexivity]|]. apply Forall_cons; [split; [apply wf_num|reflexivity]|constructor].
      - apply app1_wf; [ident|]. apply Forall_cons; [split; [unfold v; well|reflexivity]|]. apply Forall_cons; [split; [unfold v; well|reflexivity]|constructor]. }
    assert (W2 : construct_ok false SkipNone (rec_call (lit "f") 12)).
    { apply co_expr; [|exact Logic.I]. apply app2_wf; [ident|]. apply Forall_cons; [split; [apply wf_num|reflexivity]|constructor]. }
    unfold pick_source. rewrite <- (app_nil_r (show_construct (rec_call (lit "f") 12))).
    change [_; _] with [inr (tree_construct pick_set) : char + node; inr (tree_construct (rec_call (lit "f") 12))].
    apply wr_construct; [exact W1|]. apply wr_construct; [exact W2|]. apply wr_end. exact Logic.I.
  - apply ND_apply. apply Exists_cons_hd. apply ND_name. reflexivity.
  - apply VA_constant, int_constant.
  - apply int_constant.
  - apply VA_builtin with (vs := [NInt 12; NInt 3]).
    + apply AV_more; [apply VA_name, at_front|]. apply AV_more; [apply VA_constant, int_constant|apply AV_end].
    + assert (K : ~ In (lit "sub") [lit "n"; lit "f"]) by (intros [K|[K|[]]]; discriminate K). exact K.
    + apply two_ints with (f := b_sub); [intros imported; reflexivity|intros st; reflexivity].
  - split; [reflexivity|left; split; [apply not_zero; discriminate|reflexivity]].
  - apply VA_builtin with (vs := [NInt 12; NInt 12]).
    + apply AV_more; [apply VA_name, at_front|]. apply AV_more; [apply VA_name, at_front|apply AV_end].
    + assert (K : ~ In (lit "mul") [lit "n"; lit "f"]) by (intros [K|[K|[]]]; discriminate K). exact K.
    + apply two_ints with (f := b_mul); [intros imported; reflexivity|intros st; reflexivity].
  - change (lit "144") with (Z_text 144). apply VT_int.
  - change (lit "144") with (Z_text 144). apply visible_line, visible_number.
Qed.
(** ** The sources as texts *)
Lemma rec_run_text op f p base F k :
  identifier op -> identifier f -> identifier p -> f <> p -> op <> f -> op <> p -> lit "sub" <> f -> lit "sub" <> p ->
  p <> lit "__va_args__" -> f <> lit "__OUTPUT_FILE__" ->
  F 0%nat = base -> (forall j, builtin_gives run_ec op [NInt (Z.of_nat (S j)); NInt (F j)] (NInt (F (S j)))) ->
  exists n0, forall n, (n0 <= n)%nat ->
    pp world0 run_config 1 n
      (lit "($set " ++ f ++ lit " \" ++ p ++ lit ".($ ($ " ++ op ++ lit " " ++ p ++ lit " ($ " ++ f ++ lit " ($ sub " ++ p ++ lit " 1))) ? " ++ p ++ lit " | " ++
       Z_text base ++ lit "))($ " ++ f ++ lit " " ++ Z_text (Z.of_nat k) ++ lit ")") (Some (lit "a.yu-c")) (Some (lit "a.c")) process0 =
      Ok (PP true (Z_text (F k)) None None false 0).
Proof. rewrite <- rec_source_is. apply rec_run. Qed.
Lemma row_is k : row k = List.concat (map (fun i => lit "x" ++ Z_text (Z.of_nat i) ++ lit ";") (List.seq 1 k)).
Proof.
  induction k as [|k IH]; [reflexivity|]. rewrite seq_S, map_app, concat_app. cbn [row]. rewrite IH. cbn [map List.concat plus Nat.add]. rewrite app_nil_r. reflexivity.
Qed.
Lemma row_run_text k : exists n0, forall n, (n0 <= n)%nat ->
  pp world0 run_config 1 n (lit "($set row \n.($ [($ row ($ sub n 1))x($ n);] ? n | []))($ row " ++ Z_text (Z.of_nat k) ++ lit ")") (Some (lit "a.yu-c")) (Some (lit "a.c")) process0 =
    Ok (PP true (List.concat (map (fun i => lit "x" ++ Z_text (Z.of_nat i) ++ lit ";") (List.seq 1 k))) None None false 0).
Proof. rewrite <- row_source_is, <- row_is. apply row_run. Qed.
Lemma even_run_text k : exists n0, forall n, (n0 <= n)%nat ->
  pp world0 run_config 1 n (lit "($set even \n.($ ($ odd ($ sub n 1)) ? n | 1))($set odd \n.($ ($ even ($ sub n 1)) ? n | 0))($ even " ++ Z_text (Z.of_nat k) ++ lit ")")
    (Some (lit "a.yu-c")) (Some (lit "a.c")) process0 = Ok (PP true (Z_text (if Nat.even k then 1 else 0)) None None false 0).
Proof. rewrite <- even_source_is. apply even_run. Qed.
