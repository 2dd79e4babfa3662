(** * Whole runs over sources with recursive functions *)
From Coq Require Import List NArith ZArith Bool String Factorial Lia ZifyBool ZifyNat ZifyN.
From Verif Require Import PyStr PyStrFacts Ast Lex LexSpec LexFacts LexFacts2 LexCases Parse Final FinalSpec FinalCases Shell ShellSpec Eval Builtin EnvSpec EvalSpec EvalFacts TrimSpec TrimCases TextFacts CodecFacts Pp PpSpec PpCases ProtectCases ExprSpec ExprShow DocSpec ExprCases CoreSpec CoreFacts CoreCases RunSpec RunFacts RunFacts2 RunCases.
Import ListNotations.
Open Scope list_scope.
Open Scope N_scope.

(** ** Texts of one line *)
Definition visible (c : char) : Prop := 33 <= c <= 126.
Lemma visible_line ind u : Forall visible u -> TrimSpec.follows ind u u.
Proof.
  intros H. exists [u], [], [u]. split; [discriminate|]. split; [reflexivity|]. split; [|split; [|split; [|apply laid_one]]].
  - constructor; [|constructor]. eapply Forall_impl; [|exact H]. intros c Hc. unfold visible in Hc. unfold py_isbreak. lia.
  - split; [constructor|]. split; [intros l _ _; exists l; reflexivity|]. intros c' Hb Hp (l & [<-|[]] & Hl). destruct (Hp u (or_introl eq_refl) Hl) as (b & E).
    destruct c' as [|d c']; [exists []; reflexivity|]. inversion Hb; subst. inversion H; subst. unfold visible in *. lia.
  - constructor; [|constructor]. destruct u as [|d u]; [apply cut_blank; constructor|]. apply (cut_line [] (d :: u)). cbn [app]. intros K. inversion K; subst. inversion H; subst. unfold visible in *. lia.
Qed.
Lemma visible_number z : Forall visible (Z_text z).
Proof.
  destruct (Z_text_digits z) as (sg & ds & -> & Hs & _ & Hd & _). apply Forall_app. split; [destruct Hs as [-> | ->]; repeat constructor; unfold visible; lia|].
  eapply Forall_impl; [|exact Hd]. intros c Hc. unfold decimal_digit in Hc. unfold visible. lia.
Qed.
Lemma visible_steady u : Forall visible u -> replace_steady u = u.
Proof.
  intros H. rewrite Forall_forall in H. apply (steady_same u u); [apply unified_id|..]; intros K; specialize (H _ K); unfold visible in H; lia.
Qed.

(** ** A function by recursion over the numbers *)
(* ($set f \p.($ ($ op p ($ f ($ sub p 1))) ? p | base))($ f k) *)
Definition app2 (f : text) (args : list expr) : expr := EApp false false (EVar (VName [] f)) (map (fun a => (false, a)) args) [].
Definition var1 (p : text) : expr := EVar (VName [] p).
Definition less (p : text) : expr := app2 (lit "sub") [var1 p; ENum 1].
Definition rec_step (op f p : text) : expr := app2 op [var1 p; app2 f [less p]].
Definition rec_function (op f p : text) (base : Z) : expr :=
  ELambda [Param [] p None] (EApp false false (ECond (var1 p) (rec_step op f p) (Some (ENum base))) [] []).
Definition rec_set (op f p : text) (base : Z) : construct := CSet (BName f) (rec_function op f p base).
Definition rec_call (f : text) (k : Z) : construct := CExpr (app2 f [ENum k]).
Definition rec_source (op f p : text) (base k : Z) : text := show_construct (rec_set op f p base) ++ show_construct (rec_call f k).
Definition rec_contents (op f p : text) (base k : Z) : contents := [inr (tree_construct (rec_set op f p base)); inr (tree_construct (rec_call f k))].
Lemma rec_source_is op f p base k : rec_source op f p base k =
  lit "($set " ++ f ++ lit " \" ++ p ++ lit ".($ ($ " ++ op ++ lit " " ++ p ++ lit " ($ " ++ f ++ lit " ($ sub " ++ p ++ lit " 1))) ? " ++ p ++ lit " | " ++ Z_text base ++ lit "))($ " ++ f ++ lit " " ++ Z_text k ++ lit ")".
Proof.
  unfold rec_source, rec_set, rec_call, rec_function, rec_step, less, app2, var1. cbn [show_construct show show_binder show_param flat_map map star fst snd show_var app].
  change (Z_text 1) with (lit "1"). repeat match goal with |- context [lit ?s] => let x := eval vm_compute in (lit s) in change (lit s) with x end.
  cbn [app]. rewrite ?app_nil_r. repeat (rewrite <- app_assoc; cbn [app]). reflexivity.
Qed.
Lemma app2_wf f args : identifier f -> Forall (fun a => wf false SkipNone a /\ opens_named a = false) args -> wf false SkipNone (app2 f args).
Proof.
  intros Hf Ha. apply wf_app; [apply wf_var; split; [constructor|exact Hf]|discriminate| |constructor].
  apply Forall_map. eapply Forall_impl; [|exact Ha]. intros a [H1 H2]. split; [exact H1|intros _; exact H2].
Qed.
Lemma var1_wf p : identifier p -> wf false SkipNone (var1 p).
Proof. intros H. apply wf_var. split; [constructor|exact H]. Qed.
Lemma less_wf p : identifier p -> wf false SkipNone (less p).
Proof. intros H. apply app2_wf; [ident|]. apply Forall_cons; [split; [apply var1_wf, H|reflexivity]|]. apply Forall_cons; [split; [apply wf_num|reflexivity]|constructor]. Qed.
Lemma rec_document op f p base k : identifier op -> identifier f -> identifier p -> document false SkipNone (rec_source op f p base k) (rec_contents op f p base k).
Proof.
  intros Ho Hf Hp. assert (W1 : construct_ok false SkipNone (rec_set op f p base)).
  { apply co_set; [exact Hf|]. apply wf_lambda; [discriminate|apply Forall_cons; [apply wf_par; [constructor|exact Hp|discriminate]|constructor]| |reflexivity].
    apply wf_app; [|discriminate|constructor|constructor]. apply wf_cond; [apply var1_wf, Hp| |reflexivity|reflexivity|intros e [= <-]; apply wf_num].
    apply app2_wf; [exact Ho|]. apply Forall_cons; [split; [apply var1_wf, Hp|reflexivity]|]. apply Forall_cons; [|constructor]. split; [|reflexivity].
    apply app2_wf; [exact Hf|]. apply Forall_cons; [split; [apply less_wf, Hp|reflexivity]|constructor]. }
  assert (W2 : construct_ok false SkipNone (rec_call f k)).
  { apply co_expr; [|exact Logic.I]. apply app2_wf; [exact Hf|]. apply Forall_cons; [split; [apply wf_num|reflexivity]|constructor]. }
  unfold rec_source, rec_contents. rewrite <- (app_nil_r (show_construct (rec_call f k))).
  apply wr_construct; [exact W1|]. apply wr_construct; [exact W2|]. apply wr_end. exact Logic.I.
Qed.
Definition name (n : text) : node := NVar (RList []) (raw n).
Definition call (f : text) (l : list node) : node := NApply (name f) l [] None 0.
(** in the branches the parameter is known, once per call that is not finished *)
Definition pending (p : text) (l : list Z) : defs := map (fun z => (p, EValue (NInt z))) l.
Lemma pending_names p l m : In m (names (pending p l)) -> m = p.
Proof. unfold names, pending. rewrite map_map. intros H. apply in_map_iff in H as (z & E & _). symmetry. exact E. Qed.
Lemma pending_free p l f g m : m <> p -> m <> f -> ~ In m (names (pending p l ++ [(f, g : entry)])).
Proof. intros H1 H2 K. unfold names in K. rewrite map_app in K. apply in_app_iff in K as [K|[K|[]]]; [apply H1, (pending_names p l), K|apply H2; symmetry; exact K]. Qed.
Lemma top_value p g l z : value run_ec (InText ((p, EValue (NInt z)) :: pending p l ++ g)) (name p) (NInt z).
Proof. apply VA_name. cbn [values_at values_in app s_txt raw]. apply at_front. Qed.
Lemma less_value p f e l z : lit "sub" <> p -> lit "sub" <> f ->
  value run_ec (InText ((p, EValue (NInt z)) :: pending p l ++ [(f, e)])) (call (lit "sub") [name p; NInt 1]) (NInt (z - 1)).
Proof.
  intros Hp Hf. apply VA_builtin with (vs := [NInt z; NInt 1]).
  - apply AV_more; [apply top_value|]. apply AV_more; [apply VA_constant, int_constant|apply AV_end].
  - change ((p, EValue (NInt z)) :: pending p l ++ [(f, e)]) with (pending p (z :: l) ++ [(f, e)]). apply pending_free; [exact Hp|exact Hf].
  - apply two_ints with (f := b_sub); [intros imported; reflexivity|intros st; reflexivity].
Qed.
Lemma not_zero z : z <> 0%Z -> ~ false_value (NInt z).
Proof. intros H [K|[K|[K|[K|[K|(t & K & _)]]]]]; try discriminate K. injection K as K. exact (H K). Qed.
Section Recursion.
Variables op f p : text.
Variables (base : Z) (F : nat -> Z).
Hypothesis Hfp : f <> p.
Hypothesis Hop : op <> f /\ op <> p.
Hypothesis Hsub : lit "sub" <> f /\ lit "sub" <> p.
Hypothesis Hva : p <> lit "__va_args__".
Hypothesis Hdots : p <> lit "...".
Hypothesis Hout : f <> lit "__OUTPUT_FILE__".
Hypothesis F0 : F 0%nat = base.
Hypothesis FS : forall k, builtin_gives run_ec op [NInt (Z.of_nat (S k)); NInt (F k)] (NInt (F (S k))).
Definition after_rec : defs := [(f, ECases p (name p) (ExprSpec.tree (rec_step op f p)) (NInt base))].
Lemma rec_value k : forall l x, value run_ec (InText (pending p l ++ after_rec)) x (NInt (Z.of_nat k)) ->
  value run_ec (InText (pending p l ++ after_rec)) (call f [x]) (NInt (F k)).
Proof.
  assert (Hn : forall l, ~ In f (names (pending p l))) by (intros l K; apply Hfp, (pending_names p l), K).
  assert (Hcond : forall z l r, value run_ec (InBody l ((p, NInt z) :: r)) (name p) (NInt z)) by (intros z l r; apply VA_name; apply at_front).
  induction k as [|k IH]; intros l x Hx.
  - eapply VA_cases with (later := pending p l) (before := []); [reflexivity|apply Hn|reflexivity|exact Hx|apply Hcond|split; [reflexivity|right; split; [right; left; reflexivity|reflexivity]]| |apply VT_int].
    rewrite F0. apply VA_constant, int_constant.
  - eapply VA_cases with (later := pending p l) (before := []) (y := ExprSpec.tree (rec_step op f p)); [reflexivity|apply Hn|reflexivity|exact Hx|apply Hcond|split; [reflexivity|left; split; [apply not_zero; lia|reflexivity]]| |apply VT_int].
    change (ExprSpec.tree (rec_step op f p)) with (call op [name p; call f [call (lit "sub") [name p; NInt 1]]]).
    change ((p, EValue (NInt (Z.of_nat (S k)))) :: pending p l ++ after_rec) with (pending p (Z.of_nat (S k) :: l) ++ after_rec).
    apply VA_builtin with (vs := [NInt (Z.of_nat (S k)); NInt (F k)]).
    + apply AV_more; [apply (top_value p after_rec l)|]. apply AV_more; [|apply AV_end]. apply IH.
      replace (NInt (Z.of_nat k)) with (NInt (Z.of_nat (S k) - 1)) by (f_equal; lia). apply less_value; apply Hsub.
    + apply pending_free; apply Hop.
    + apply FS.
Qed.
Lemma rec_page k : page run_ec [] (IndStr []) untold (runs true [] (rec_contents op f p base (Z.of_nat k))) (Z_text (F k)) untold.
Proof.
  change (runs true [] (rec_contents op f p base (Z.of_nat k))) with
    [NSet (LAtom (raw f)) (NLambda [([], raw p, NNone)] (NApply (NCond (name p) (ExprSpec.tree (rec_step op f p)) (NInt base)) [] [] None 0)); call f [NInt (Z.of_nat k)]].
  eapply PG_set with (es := after_rec).
  { intros [K|[]]. exact (Hout K). }
  { apply DF_cases with (n := raw f) (q := raw p) (v := NInt 1) (vc := NInt 1); [exact Hdots|exact Hva|apply int_constant|apply ND_name; reflexivity|]. apply VA_name. apply at_front. }
  cbn [app trimmed_next call]. replace (Z_text (F k)) with (Z_text (F k) ++ []) by apply app_nil_r.
  eapply PG_applied; [apply (rec_value k []), VA_constant, int_constant|apply SH_value, VT_int|apply visible_line, visible_number|apply PG_end].
Qed.
End Recursion.
Lemma identifier_no_return a : identifier a -> ~ In 13 a.
Proof.
  destruct a as [|c r]; [intros []|]. intros [Hc Hr] [K|K]; [subst c; unfold letter in Hc; lia|]. rewrite Forall_forall in Hr. specialize (Hr _ K).
  unfold name_char, letter, decimal_digit in Hr. lia.
Qed.
Lemma number_no_return z : ~ In 13 (Z_text z).
Proof. intros K. pose proof (visible_number z) as V. rewrite Forall_forall in V. specialize (V _ K). unfold visible in V. lia. Qed.
Lemma rec_run op f p base F k : identifier op -> identifier f -> identifier p -> f <> p -> op <> f -> op <> p -> lit "sub" <> f -> lit "sub" <> p ->
  p <> lit "__va_args__" -> f <> lit "__OUTPUT_FILE__" ->
  F 0%nat = base -> (forall j, builtin_gives run_ec op [NInt (Z.of_nat (S j)); NInt (F j)] (NInt (F (S j)))) ->
  exists n0, forall n, (n0 <= n)%nat ->
    pp world0 run_config 1 n (rec_source op f p base (Z.of_nat k)) (Some (lit "a.yu-c")) (Some (lit "a.c")) process0 = Ok (PP true (Z_text (F k)) None None false 0).
Proof.
  intros Io If Ip H1 H2 H3 H4 H5 H6 H7 H8 H9.
  assert (Hd : p <> lit "...") by (intros ->; destruct Ip as [Hc _]; unfold letter in Hc; vm_compute in Hc; intuition congruence).
  destruct (document_run world0 run_config 0 (rec_source op f p base (Z.of_nat k)) (rec_source op f p base (Z.of_nat k)) (rec_contents op f p base (Z.of_nat k)) (Z_text (F k)) untold (Some (lit "a.yu-c")) (Some (lit "a.c")) process0)
    with (5 := rec_page op f p base F H1 (conj H2 H3) (conj H4 H5) H6 Hd H7 H8 H9 k) as [n0 H].
  - apply unified_id. rewrite rec_source_is. intros K.
    repeat match type of K with In _ (_ ++ _) => apply in_app_iff in K as [K|K] end;
      first [revert K; apply identifier_no_return; assumption | revert K; apply number_no_return | revert K; vm_compute; intuition discriminate].
  - apply rec_document; assumption.
  - discriminate.
  - reflexivity.
  - exists n0. intros n Hn. rewrite (H n Hn). unfold yielded. change (k_reduce run_config) with false. rewrite reduce_off, visible_steady by apply visible_number. reflexivity.
Qed.
Lemma fact_run k : exists n0, forall n, (n0 <= n)%nat ->
  pp world0 run_config 1 n (lit "($set fact \n.($ ($ mul n ($ fact ($ sub n 1))) ? n | 1))($ fact " ++ Z_text (Z.of_nat k) ++ lit ")") (Some (lit "a.yu-c")) (Some (lit "a.c")) process0 =
    Ok (PP true (Z_text (Z.of_nat (Factorial.fact k))) None None false 0).
Proof.
  replace (lit "($set fact \n.($ ($ mul n ($ fact ($ sub n 1))) ? n | 1))($ fact " ++ Z_text (Z.of_nat k) ++ lit ")") with (rec_source (lit "mul") (lit "fact") (lit "n") 1 (Z.of_nat k)) by (rewrite rec_source_is; reflexivity).
  apply (rec_run _ _ _ _ (fun k => Z.of_nat (Factorial.fact k))); try discriminate; try ident; [reflexivity|].
  intros j. apply two_ints with (f := b_mul); [intros imported; reflexivity|intros st]. cbn [b_mul b_int2]. change (Factorial.fact (S j)) with (S j * Factorial.fact j)%nat. rewrite Nat2Z.inj_mul. reflexivity.
Qed.

(** ** A row of pieces *)
(* ($set row \n.($ [($ row ($ sub n 1))x($ n);] ? n | []))($ row k) *)
Definition row_again : expr := app1 "row" [less (lit "n")].
Definition show_n : expr := app1 "n" [].
Definition row_text : expr := EText DSquare (show row_again ++ lit "x" ++ show show_n ++ lit ";")
  (inr (ExprSpec.tree row_again) :: inl 120 :: inr (ExprSpec.tree show_n) :: [inl 59]).
Definition row_empty : expr := EText DSquare [] [].
Definition row_function : expr := ELambda [Param [] (lit "n") None] (EApp false false (ECond (v "n") row_text (Some row_empty)) [] []).
Definition set_row : construct := CSet (BName (lit "row")) row_function.
Definition call_row (k : Z) : construct := CExpr (app1 "row" [ENum k]).
Definition row_source (k : Z) : text := show_construct set_row ++ show_construct (call_row k).
Definition row_contents (k : Z) : contents := [inr (tree_construct set_row); inr (tree_construct (call_row k))].
Fixpoint row (k : nat) : text := match k with O => [] | S j => row j ++ lit "x" ++ Z_text (Z.of_nat k) ++ lit ";" end.
Lemma row_source_is k : row_source k = lit "($set row \n.($ [($ row ($ sub n 1))x($ n);] ? n | []))($ row " ++ Z_text k ++ lit ")".
Proof.
  unfold row_source. replace (show_construct (call_row k)) with (lit "($ row " ++ Z_text k ++ lit ")"); [reflexivity|].
  cbn [show_construct call_row show app1 map v fst snd flat_map star app show_var]. rewrite app_nil_r. reflexivity.
Qed.
Lemma row_text_wf : wf false SkipNone row_text.
Proof.
  assert (W1 : construct_ok false SkipNone (CExpr row_again)). { apply co_expr; [|exact Logic.I]. apply app1_wf; [ident|]. apply Forall_cons; [split; [apply less_wf; ident|reflexivity]|constructor]. }
  assert (W2 : construct_ok false SkipNone (CExpr show_n)). { apply co_expr; [|exact Logic.I]. apply app1_wf; [ident|constructor]. }
  apply wf_text; [exact Logic.I|]. change (show row_again) with (show_construct (CExpr row_again)). change (ExprSpec.tree row_again) with (tree_construct (CExpr row_again)).
  change (show show_n) with (show_construct (CExpr show_n)). change (ExprSpec.tree show_n) with (tree_construct (CExpr show_n)).
  revert W1 W2. generalize (CExpr row_again) (CExpr show_n). intros c1 c2 W1 W2. change (lit "x") with [120]. change (lit ";") with [59]. cbn [app].
  apply wr_construct; [exact W1|]. wchar; [intros [_ [? E]]; discriminate E|]. apply wr_construct; [exact W2|]. wchar; [intros [_ [? E]]; discriminate E|]. apply wr_end. reflexivity.
Qed.
Lemma row_document k : document false SkipNone (row_source k) (row_contents k).
Proof.
  assert (W1 : construct_ok false SkipNone set_row).
  { apply co_set; [cbn [binder_ok]; ident|]. apply wf_lambda; [discriminate|apply Forall_cons; [apply wf_par; [constructor|ident|discriminate]|constructor]| |reflexivity].
    apply wf_app; [|discriminate|constructor|constructor]. apply wf_cond; [unfold v; well|exact row_text_wf|reflexivity|reflexivity|intros e [= <-]].
    apply wf_text; [exact Logic.I|]. apply wr_end. reflexivity. }
  assert (W2 : construct_ok false SkipNone (call_row k)).
  { apply co_expr; [|exact Logic.I]. apply app1_wf; [ident|]. apply Forall_cons; [split; [apply wf_num|reflexivity]|constructor]. }
  unfold row_source, row_contents. rewrite <- (app_nil_r (show_construct (call_row k))).
  apply wr_construct; [exact W1|]. apply wr_construct; [exact W2|]. apply wr_end. exact Logic.I.
Qed.
Definition after_row : defs := [(lit "row", ECases (lit "n") (name (lit "n")) (ExprSpec.tree row_text) (ExprSpec.tree row_empty))].
Lemma row_visible k : Forall visible (row k).
Proof.
  induction k as [|k IH]; cbn [row]; [constructor|]. apply Forall_app. split; [exact IH|]. apply Forall_app. split; [apply Forall_cons; [vm_compute; split; discriminate|apply Forall_nil]|].
  apply Forall_app. split; [apply visible_number|apply Forall_cons; [vm_compute; split; discriminate|apply Forall_nil]].
Qed.
Lemma row_value k : forall l x, value run_ec (InText (pending (lit "n") l ++ after_row)) x (NInt (Z.of_nat k)) ->
  value run_ec (InText (pending (lit "n") l ++ after_row)) (call (lit "row") [x]) (NRaw (row k)).
Proof.
  assert (Hn : forall l, ~ In (lit "row") (names (pending (lit "n") l))) by (intros l K; apply pending_names in K; discriminate K).
  assert (Hcond : forall z l r, value run_ec (InBody l ((lit "n", NInt z) :: r)) (name (lit "n")) (NInt z)) by (intros z l r; apply VA_name; apply at_front).
  induction k as [|k IH]; intros l x Hx.
  - eapply VA_cases with (later := pending (lit "n") l) (before := []); [reflexivity|apply Hn|reflexivity|exact Hx|apply Hcond|split; [reflexivity|right; split; [right; left; reflexivity|reflexivity]]| |apply VT_raw].
    apply VA_text with (vs := []); [constructor|apply AV_end|apply WR_end].
  - eapply VA_cases with (later := pending (lit "n") l) (before := []) (y := ExprSpec.tree row_text); [reflexivity|apply Hn|reflexivity|exact Hx|apply Hcond|split; [reflexivity|left; split; [apply not_zero; lia|reflexivity]]| |apply VT_raw].
    set (p1 := NPlain (raw (lit "x")) IndFalse false). set (p2 := NPlain (raw (lit ";")) IndFalse false).
    change (ExprSpec.tree row_text) with (NText [call (lit "row") [call (lit "sub") [name (lit "n"); NInt 1]]; p1; call (lit "n") []; p2] 0 0).
    change ((lit "n", EValue (NInt (Z.of_nat (S k)))) :: pending (lit "n") l ++ after_row) with (pending (lit "n") (Z.of_nat (S k) :: l) ++ after_row).
    apply VA_text with (vs := [NRaw (row k); p1; NInt (Z.of_nat (S k)); p2]).
    + repeat (apply Forall_cons; [exact Logic.I|]). apply Forall_nil.
    + apply AV_more; [apply IH; replace (NInt (Z.of_nat k)) with (NInt (Z.of_nat (S k) - 1)) by (f_equal; lia); apply less_value; discriminate|].
      apply AV_more; [apply VA_constant; split; [apply DA_plain|reflexivity]|]. apply AV_more; [eapply VA_show; [apply (top_value (lit "n") after_row l)|apply VT_int]|].
      apply AV_more; [apply VA_constant; split; [apply DA_plain|reflexivity]|apply AV_end].
    + change (row (S k)) with (row k ++ lit "x" ++ Z_text (Z.of_nat (S k)) ++ lit ";"). change (lit ";") with (lit ";" ++ []).
      eapply WR_applied; [exact Logic.I|apply SH_value, VT_raw|apply visible_line, row_visible|]. apply WR_other; [intros []|apply SH_plain|].
      eapply WR_applied; [exact Logic.I|apply SH_value, VT_int|apply visible_line, visible_number|]. apply WR_other; [intros []|apply SH_plain|apply WR_end].
Qed.
Lemma row_page k : page run_ec [] (IndStr []) untold (runs true [] (row_contents (Z.of_nat k))) (row k) untold.
Proof.
  change (runs true [] (row_contents (Z.of_nat k))) with [NSet (LAtom (raw (lit "row"))) (ExprSpec.tree row_function); call (lit "row") [NInt (Z.of_nat k)]].
  eapply PG_set with (es := after_row); [intros [H|[]]; discriminate H| |].
  { change (ExprSpec.tree row_function) with (NLambda [([], raw (lit "n"), NNone)] (NApply (NCond (name (lit "n")) (ExprSpec.tree row_text) (ExprSpec.tree row_empty)) [] [] None 0)).
    apply DF_cases with (v := NInt 1) (vc := NInt 1); [discriminate|discriminate|apply int_constant|apply ND_name; reflexivity|]. apply VA_name. apply at_front. }
  cbn [app trimmed_next call]. replace (row k) with (row k ++ []) by apply app_nil_r.
  eapply PG_applied; [apply (row_value k []), VA_constant, int_constant|apply SH_value, VT_raw|apply visible_line, row_visible|apply PG_end].
Qed.
Lemma row_run k : exists n0, forall n, (n0 <= n)%nat ->
  pp world0 run_config 1 n (row_source (Z.of_nat k)) (Some (lit "a.yu-c")) (Some (lit "a.c")) process0 = Ok (PP true (row k) None None false 0).
Proof.
  destruct (document_run world0 run_config 0 (row_source (Z.of_nat k)) (row_source (Z.of_nat k)) (row_contents (Z.of_nat k)) (row k) untold (Some (lit "a.yu-c")) (Some (lit "a.c")) process0) with (5 := row_page k) as [n0 H].
  - apply unified_id. rewrite row_source_is. intros K. apply in_app_iff in K as [K|K]; [revert K; vm_compute; intuition discriminate|]. apply in_app_iff in K as [K|K]; [|revert K; vm_compute; intuition discriminate].
    pose proof (visible_number (Z.of_nat k)) as V. rewrite Forall_forall in V. specialize (V _ K). unfold visible in V. lia.
  - apply row_document.
  - discriminate.
  - reflexivity.
  - exists n0. intros n Hn. rewrite (H n Hn). unfold yielded. change (k_reduce run_config) with false. rewrite reduce_off, visible_steady by apply row_visible. reflexivity.
Qed.
