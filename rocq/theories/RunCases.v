(** * Whole runs over sources with definitions and applications *)
From Coq Require Import List NArith ZArith Bool String Lia ZifyBool ZifyNat ZifyN.
From Verif Require Import PyStr PyStrFacts Ast Lex LexSpec LexFacts LexFacts2 LexCases Parse Final Shell ShellSpec Eval Builtin EnvSpec EvalSpec EvalFacts TrimSpec TrimCases CodecFacts Pp PpSpec PpCases ProtectCases ExprSpec ExprShow DocSpec ExprCases CoreSpec CoreFacts CoreCases RunSpec RunFacts RunFacts2.
Import ListNotations.
Open Scope list_scope.
Open Scope N_scope.

Definition untold : feedback := Feedback None false.
(** what a run yields that ends with the text [out] and the feedback [fb] *)
Definition yielded (cfg : config) (out : text) (fb : feedback) : ppres :=
  PP true (replace_steady (reduce_emptiness (k_reduce cfg) out)) None (f_output fb) (f_repeat fb) 0.
Lemma source_parses cx d key s decl t c : document (c_python cx) (c_skip cx) t c -> (c_python cx = true -> no_magic is_word t) ->
  dict_get key (y_source s) = Some (decl, t) -> exists l, yuparse cx (S d) key s = Ok (l, s) /\ map bare l = runs true [] c.
Proof. intros H1 H2 H3. apply (source_reads cx d key s decl t c); auto. Qed.
Lemma document_run w cfg d t t' c out fb input output pr :
  unified t t' -> document (is_python output) (skip_of cfg (is_python output)) t' c ->
  (is_python output = true -> no_magic is_word t') -> k_browse cfg = false ->
  page (run_ectx w cfg input output pr) [] (IndStr []) untold (runs true [] c) out fb ->
  exists n0, forall n, (n0 <= n)%nat -> pp w cfg (S d) n t input output pr = Ok (yielded cfg out fb).
Proof.
  intros Hu Hd Hm Hb Hp. assert (Et : unify_eol t = t') by (eapply unified_fun; [apply unify_eol_unified|exact Hu]).
  set (cx := run_ctx w cfg input output). set (s0 := run_start t input output pr).
  destruct (source_reads cx d (input_key input) s0 (match input with Some p => DPath p | None => DNone end) t' c Hd) as (l & El & Hl).
  - intros Hy _. apply Hm, Hy.
  - unfold s0, run_start. cbn [y_source]. rewrite dict_get_set', teqb_refl, Et. reflexivity.
  - destruct (page_text (run_ectx w cfg input output pr) (yuparse cx (S d)) Hb (source_parses cx d) _ _ _ _ l s0 0%nat 0%nat Hp Hl eq_refl) as (s' & [n0 He] & Hs & Hk).
    exists n0. intros n Hn. unfold pp. fold cx s0. rewrite El.
    match goal with |- context [yueval ?a ?b n ?x ?y ?z] => replace (yueval a b n x y z) with (Ok (NRaw out, @nil frame, s')) end.
    + cbn [output_of str_of option_map final output_text]. unfold yielded. rewrite <- Hs, Hk. reflexivity.
    + symmetry. rewrite (more_budget _ _ n0 n) by (try lia; rewrite He; discriminate). exact He.
Qed.
(** ** Passes *)
Lemma document_passes w cfg d t t' c out fo input output prs m :
  unified t t' -> document (is_python output) (skip_of cfg (is_python output)) t' c ->
  (is_python output = true -> no_magic is_word t') -> k_browse cfg = false -> (0 < m)%nat ->
  (forall k, (k < m)%nat -> page (run_ectx w (at_passage cfg k) input output (prs k)) [] (IndStr []) untold (runs true [] c) (out k) (Feedback (fo k) (Nat.ltb (S k) m))) ->
  exists n0, forall n, (n0 <= n)%nat ->
    passes (run_pass w cfg (S d) n t input output prs) 0 [] true m (map (fun k => yielded cfg (out k) (Feedback (fo k) (Nat.ltb (S k) m))) (List.seq 0 m)).
Proof.
  intros Hu Hd Hm Hb H0 Hp.
  assert (K : forall j, (j <= m)%nat -> exists n0, forall n, (n0 <= n)%nat -> forall k, (k < j)%nat ->
    pp w (at_passage cfg k) (S d) n t input output (prs k) = Ok (yielded cfg (out k) (Feedback (fo k) (Nat.ltb (S k) m)))).
  { induction j as [|j IH]; intros Hj; [exists O; intros; lia|]. destruct IH as [n1 H1]; [lia|].
    destruct (document_run w (at_passage cfg j) d t t' c _ _ input output (prs j) Hu Hd Hm Hb (Hp j ltac:(lia))) as [n2 H2].
    exists (Nat.max n1 n2). intros n Hn k Hk. destruct (Nat.eq_dec k j) as [->|Hne]; [apply H2; lia|apply H1; lia]. }
  destruct (K m (le_n m)) as [n0 H]. exists n0. intros n Hn. specialize (H n Hn).
  set (r := fun k => yielded cfg (out k) (Feedback (fo k) (Nat.ltb (S k) m))) in *.
  assert (G : forall j k log, (k + j = m)%nat -> (0 < j)%nat -> passes (run_pass w cfg (S d) n t input output prs) k log true j (log ++ map r (List.seq k j))).
  { induction j as [|j IH]; intros k log Hkj Hj; [lia|]. cbn [List.seq map].
    assert (Hr : run_pass w cfg (S d) n t input output prs k log = (Out true (Nat.ltb (S k) m), log ++ [r k])) by (unfold run_pass; rewrite H by lia; reflexivity).
    destruct j as [|j].
    - cbn [List.seq map]. eapply pa_last; [exact Hr|reflexivity|]. cbn [o_repeat]. lia.
    - eapply pa_more; [exact Hr|reflexivity|cbn [o_repeat]; lia|].
      replace (log ++ r k :: map r (List.seq (S k) (S j))) with ((log ++ [r k]) ++ map r (List.seq (S k) (S j))) by (rewrite <- app_assoc; reflexivity). apply IH; lia. }
  apply (G m O []); lia.
Qed.
(** the list at the front of the source *)
Lemma element_per_pass w cfg d t t' c a b x vs y r out fo input output prs :
  unified t t' -> document (is_python output) (skip_of cfg (is_python output)) t' c ->
  (is_python output = true -> no_magic is_word t') -> k_browse cfg = false ->
  runs true [] c = NSet (LAtom a) (NApply (NVar (RList []) b) [x] [] None 0) :: y :: r ->
  s_txt b = lit "__PASSAGE__" -> s_txt a <> lit "__PASSAGE__" -> s_txt a <> lit "__OUTPUT_FILE__" -> vs <> [] ->
  (forall k v, nth_error vs k = Some v ->
     let ec := run_ectx w (at_passage cfg k) input output (prs k) in
     (forall imported, e_builtin ec imported (lit "__PASSAGE__") = None) /\
     value ec (InText [(s_txt a, EOpen)]) x (NList vs) /\
     forall rep, page ec [(s_txt a, EValue v)] (IndStr []) (Feedback None rep) (trimmed_next (IndStr []) (y :: r)) (out k) (Feedback (fo k) rep)) ->
  exists n0, forall n, (n0 <= n)%nat ->
    passes (run_pass w cfg (S d) n t input output prs) 0 [] true (List.length vs)
      (map (fun k => yielded cfg (out k) (Feedback (fo k) (Nat.ltb (S k) (List.length vs)))) (List.seq 0 (List.length vs))).
Proof.
  intros Hu Hd Hm Hbr Ec Hb Ha Ho Hne H. eapply document_passes; try eassumption; [destruct vs; [congruence|cbn [List.length]; lia]|].
  intros k Hk. destruct (nth_error vs k) as [v|] eqn:En; [|apply nth_error_None in En; lia]. destruct (H k v En) as (H1 & H2 & H3). rewrite Ec.
  eapply PG_passage; [exact Ho|exact Hb|rewrite Hb; exact Ha|intros []|rewrite Hb; exact H1|exact H2|reflexivity|exact En|]. apply H3.
Qed.

(** ** Case *)
(* ($set n 2)($set line \x.\y:($ add n 1).[int v($ x) = ($ y);
     int w;])begin
     ($line 5 ($ mul n 21))
     ($line 6)end *)
Definition app1 (f : string) (args : list expr) : expr := EApp false false (v f) (map (fun a => (false, a)) args) [].
Definition show_x : expr := app1 "x" [].
Definition show_y : expr := app1 "y" [].
Definition template_text : text := lit "int v" ++ show show_x ++ lit " = " ++ show show_y ++ (59 :: 10 :: lit "  int w;").
Definition template_contents : contents :=
  chars_of (lit "int v") ++ inr (ExprSpec.tree show_x) :: chars_of (lit " = ") ++ inr (ExprSpec.tree show_y) :: chars_of (59 :: 10 :: lit "  int w;").
Definition template : expr := EText DSquare template_text template_contents.
Definition default_y : expr := app1 "add" [v "n"; ENum 1].
Definition line_function : expr := ELambda [Param [] (lit "x") None; Param [] (lit "y") (Some default_y)] template.
Definition set_n : construct := CSet (BName (lit "n")) (ENum 2).
Definition set_line : construct := CSet (BName (lit "line")) line_function.
Definition times : expr := app1 "mul" [v "n"; ENum 21].
Definition call1 : construct := CExpr (EApp false true (v "line") [(false, ENum 5); (false, times)] []).
Definition call2 : construct := CExpr (EApp false true (v "line") [(false, ENum 6)] []).
Definition run_source : text := show_construct set_n ++ show_construct set_line ++ lit "begin" ++ 10 :: lit "  " ++ show_construct call1 ++ 10 :: show_construct call2 ++ lit "end".
Definition run_contents : contents :=
  inr (tree_construct set_n) :: inr (tree_construct set_line) :: chars_of (lit "begin" ++ 10 :: lit "  ") ++ inr (tree_construct call1) :: inl 10 :: inr (tree_construct call2) :: chars_of (lit "end").
Lemma run_source_is : run_source = lit "($set n 2)($set line \x.\y:($ add n 1).[int v($ x) = ($ y);" ++ 10 :: lit "  int w;])begin" ++ 10 :: lit "  ($line 5 ($ mul n 21))" ++ 10 :: lit "($line 6)end".
Proof. vm_compute. reflexivity. Qed.
Lemma app1_wf f args : identifier (lit f) -> Forall (fun a => wf false SkipNone a /\ opens_named a = false) args -> wf false SkipNone (app1 f args).
Proof.
  intros Hf Ha. apply wf_app; [apply wf_var; split; [constructor|exact Hf]|discriminate| |constructor].
  apply Forall_map. eapply Forall_impl; [|exact Ha]. intros a [H1 H2]. split; [exact H1|intros _; exact H2].
Qed.
Lemma template_wf : wf false SkipNone template.
Proof.
  assert (Wx : wf false SkipNone show_x) by (apply app1_wf; [ident|constructor]). assert (Wy : wf false SkipNone show_y) by (apply app1_wf; [ident|constructor]).
  apply wf_text; [exact Logic.I|]. unfold template_text, template_contents.
  change (show show_x) with (show_construct (CExpr show_x)). change (show show_y) with (show_construct (CExpr show_y)).
  change (ExprSpec.tree show_x) with (tree_construct (CExpr show_x)). change (ExprSpec.tree show_y) with (tree_construct (CExpr show_y)).
  generalize (CExpr show_x) (co_expr _ _ show_x Wx Logic.I) (CExpr show_y) (co_expr _ _ show_y Wy Logic.I). intros cx Hx cy Hy.
  change (lit "int v") with [105; 110; 116; 32; 118]. change (lit " = ") with [32; 61; 32]. change (lit "  int w;") with [32; 32; 105; 110; 116; 32; 119; 59]. cbn [chars_of map app].
  do 5 (wchar; [intros [_ [? E]]; discriminate E|]). apply wr_construct; [exact Hx|]. do 3 (wchar; [intros [_ [? E]]; discriminate E|]). apply wr_construct; [exact Hy|].
  do 10 (wchar; [intros [_ [? E]]; discriminate E|]). apply wr_end. reflexivity.
Qed.
Lemma run_document : document false SkipNone run_source run_contents.
Proof.
  assert (W1 : construct_ok false SkipNone set_n) by (apply co_set; [cbn [binder_ok]; ident|apply wf_num]).
  assert (W2 : construct_ok false SkipNone set_line).
  { apply co_set; [cbn [binder_ok]; ident|]. apply wf_lambda; [discriminate| |exact template_wf|reflexivity].
    apply Forall_cons; [apply wf_par; [constructor|ident|discriminate]|]. apply Forall_cons; [|constructor]. apply wf_par; [constructor|ident|].
    intros e [= <-]. apply app1_wf; [ident|]. repeat (apply Forall_cons; [split; [unfold v; well|reflexivity]|]). constructor. }
  assert (W3 : construct_ok false SkipNone call1).
  { apply co_expr; [|exact Logic.I]. apply wf_app; [unfold v; well|not_keyword| |constructor]. apply Forall_cons; [split; [apply wf_num|reflexivity]|]. apply Forall_cons; [|constructor].
    split; [|reflexivity]. apply app1_wf; [ident|]. repeat (apply Forall_cons; [split; [unfold v; well|reflexivity]|]). constructor. }
  assert (W4 : construct_ok false SkipNone call2).
  { apply co_expr; [|exact Logic.I]. apply wf_app; [unfold v; well|not_keyword| |constructor]. apply Forall_cons; [split; [apply wf_num|reflexivity]|constructor]. }
  unfold run_source, run_contents. revert W1 W2 W3 W4. generalize set_n set_line call1 call2. intros c1 c2 c3 c4 W1 W2 W3 W4.
  change (lit "begin") with [98; 101; 103; 105; 110]. change (lit "  ") with [32; 32]. change (lit "end") with [101; 110; 100]. cbn [chars_of map app].
  apply wr_construct; [exact W1|]. apply wr_construct; [exact W2|]. do 8 dchar. apply wr_construct; [exact W3|]. dchar. apply wr_construct; [exact W4|]. do 3 dchar. apply wr_end. exact Logic.I.
Qed.

Definition run_config : config := config0 0 false false.
Definition run_ec : ectx := run_ectx world0 run_config (Some (lit "a.yu-c")) (Some (lit "a.c")) process0.
Definition run_output : text := lit "begin" ++ 10 :: lit "  int v5 = 42;" ++ 10 :: lit "    int w;" ++ 10 :: lit "int v6 = 3;" ++ 10 :: lit "  int w;end".
Lemma computed : pp world0 run_config 1 60 run_source (Some (lit "a.yu-c")) (Some (lit "a.c")) process0 = Ok (PP true run_output None None false 0).
Proof. vm_compute. reflexivity. Qed.

Lemma placed_lines' ec i ls w : e_trim ec = true -> ls <> [] -> forallb (fun l => forallb (fun c => negb (py_isbreak c)) l) ls = true -> trim true i (join [10] ls) = w -> placed ec i (join [10] ls) w.
Proof.
  intros Ht0 Hn Hb Ht. unfold placed. rewrite Ht0. cbn [implb]. destruct (every_text_follows i ls Hn) as (w' & F & E).
  - apply Forall_forall. intros l Hl. rewrite forallb_forall in Hb. specialize (Hb l Hl). apply Forall_forall. intros c Hc. rewrite forallb_forall in Hb. specialize (Hb c Hc). destruct (py_isbreak c); [discriminate Hb|reflexivity].
  - rewrite Ht in E. subst w'. exact F.
Qed.
Lemma placed_lines i ls w : ls <> [] -> forallb (fun l => forallb (fun c => negb (py_isbreak c)) l) ls = true -> trim true i (join [10] ls) = w -> placed run_ec i (join [10] ls) w.
Proof. apply placed_lines'. reflexivity. Qed.
Ltac place_now := match goal with |- placed run_ec ?i ?u ?w => let u' := eval vm_compute in u in let w' := eval vm_compute in w in
  change (placed run_ec i u' w') end.
Definition line_text (x y : Z) : text := lit "int v" ++ Z_text x ++ lit " = " ++ Z_text y ++ (59 :: 10 :: lit "  int w;") ++ [].
Lemma int_constant z : constant_value (NInt z).
Proof. split; [constructor|reflexivity]. Qed.
Lemma line_body known bs x y : gives bs (lit "x") (NInt x) -> gives bs (lit "y") (NInt y) ->
  forallb (fun c => negb (py_isbreak c)) (Z_text x) = true -> trim true [] (Z_text x) = Z_text x ->
  forallb (fun c => negb (py_isbreak c)) (Z_text y) = true -> trim true [] (Z_text y) = Z_text y ->
  value run_ec (InBody known bs) (ExprSpec.tree template) (NRaw (line_text x y)).
Proof.
  intros Gx Gy Bx Tx By Ty.
  set (p1 := NPlain (raw (lit "int v")) IndFalse false). set (p2 := NPlain (raw (lit " = ")) IndFalse false). set (p3 := NPlain (raw (59 :: 10 :: lit "  int w;")) IndFalse false).
  assert (E : ExprSpec.tree template = NText [p1; ExprSpec.tree show_x; p2; ExprSpec.tree show_y; p3] 0 0) by (vm_compute; reflexivity). rewrite E.
  assert (C1 : constant_value p1) by (split; [apply DA_plain|reflexivity]). assert (C2 : constant_value p2) by (split; [apply DA_plain|reflexivity]). assert (C3 : constant_value p3) by (split; [apply DA_plain|reflexivity]).
  apply VA_text with (vs := [p1; NInt x; p2; NInt y; p3]).
  - repeat (apply Forall_cons; [exact Logic.I|]). apply Forall_nil.
  - apply AV_more; [apply VA_constant, C1|]. apply AV_more; [eapply VA_show; [apply VA_name; exact Gx|apply VT_int]|].
    apply AV_more; [apply VA_constant, C2|]. apply AV_more; [eapply VA_show; [apply VA_name; exact Gy|apply VT_int]|]. apply AV_more; [apply VA_constant, C3|]. apply AV_end.
  - unfold line_text. apply WR_other; [intros []|apply SH_plain|]. eapply WR_applied; [exact Logic.I|apply SH_value, VT_int| |].
    { change (placed run_ec [] (join [10] [Z_text x]) (Z_text x)). apply placed_lines; [discriminate|cbn [forallb]; rewrite Bx; reflexivity|exact Tx]. }
    apply WR_other; [intros []|apply SH_plain|]. eapply WR_applied; [exact Logic.I|apply SH_value, VT_int| |].
    { change (placed run_ec [] (join [10] [Z_text y]) (Z_text y)). apply placed_lines; [discriminate|cbn [forallb]; rewrite By; reflexivity|exact Ty]. }
    apply WR_other; [intros []|apply SH_plain|]. apply WR_end.
Qed.
Lemma at_front (k : text) (v : node) r : gives ((k, v) :: r) k v.
Proof. exists [], r. split; [reflexivity|intros []]. Qed.
Lemma at_next (k k' : text) (v u : node) r : k <> k' -> gives r k v -> gives ((k', u) :: r) k v.
Proof. intros Hk (a & b & -> & Ha). exists ((k', u) :: a), b. split; [reflexivity|]. cbn [names map fst In]. intros [H|H]; [congruence|exact (Ha H)]. Qed.
Lemma two_ints' ec op f (a b c : Z) : (forall imported, e_builtin ec imported (lit op) = Some (BFun f)) ->
  (forall st, f [NInt a; NInt b] st = Ok (NInt c, st)) -> builtin_gives ec (lit op) [NInt a; NInt b] (NInt c).
Proof.
  intros H1 H2 [|x [|y [|? ?]]] E; try discriminate E. injection E as Ex Ey. destruct x; try discriminate Ex. destruct y; try discriminate Ey. cbn [bare] in Ex, Ey. injection Ex as ->. injection Ey as ->.
  exists (NInt c). split; [|split; [constructor|reflexivity]]. exists f, (NInt c). split; [exact H1|]. split; [exact H2|reflexivity].
Qed.
Lemma two_ints op f (a b c : Z) : (forall imported, e_builtin run_ec imported (lit op) = Some (BFun f)) ->
  (forall st, f [NInt a; NInt b] st = Ok (NInt c, st)) -> builtin_gives run_ec (lit op) [NInt a; NInt b] (NInt c).
Proof. apply two_ints'. Qed.
Definition after_n : defs := [(lit "n", EValue (NInt 2))].
Definition line_defaults : list (text * node) := [(lit "y", NInt 3)].
Definition after_line : defs := (lit "line", EFunction [lit "x"; lit "y"] line_defaults (ExprSpec.tree template)) :: after_n.
Lemma run_page : page run_ec [] (IndStr []) untold (runs true [] run_contents) run_output untold.
Proof.
  set (q1 := NPlain (raw (lit "begin" ++ 10 :: lit "  ")) (IndStr (lit "  ")) false). set (q2 := NPlain (raw [10]) (IndStr []) false). set (q3 := NPlain (raw (lit "end")) IndFalse false).
  assert (E : runs true [] run_contents = [tree_construct set_n; tree_construct set_line; q1; tree_construct call1; q2; tree_construct call2; q3]) by (vm_compute; reflexivity). rewrite E. clear E.
  eapply PG_set; [|apply DF_value, VA_constant, int_constant|].
  { intros [H|[]]; discriminate H. }
  cbn [app]. change [(s_txt (raw (lit "n")), EValue (NInt 2))] with after_n. cbn [trimmed_next tree_construct set_line].
  eapply PG_set; [| |].
  { instantiate (1 := [(lit "line", EFunction [lit "x"; lit "y"] line_defaults (ExprSpec.tree template))]). intros [H|[]]; discriminate H. }
  { apply DF_function with (bs := [(lit "x", NInt 5); (lit "y", NInt 42)]) (w := NRaw (line_text 5 42)).
    - apply PA_plain with (a := raw (lit "x")). apply PA_default with (a := raw (lit "y")) (v := NInt 3) (ps := []) (dflt := []); [|apply PA_end].
      apply VA_builtin with (vs := [NInt 2; NInt 1]).
      + apply AV_more; [apply VA_name; apply at_front|]. apply AV_more; [apply VA_constant, int_constant|apply AV_end].
      + intros [H|[H|[]]]; discriminate H.
      + apply two_ints with (f := b_add); [intros imported; reflexivity|intros st; reflexivity].
    - constructor; [intros [H|[]]; discriminate H|constructor; [intros []|constructor]].
    - discriminate.
    - reflexivity.
    - constructor; [apply int_constant|constructor; [apply int_constant|constructor]].
    - apply line_body; [apply at_front|apply at_next; [discriminate|apply at_front]|reflexivity..]. }
  cbn [app]. fold after_line. cbn [trimmed_next q1].
  change run_output with ((lit "begin" ++ 10 :: lit "  ") ++ (lit "int v5 = 42;" ++ 10 :: lit "    int w;") ++ [10] ++ (lit "int v6 = 3;" ++ 10 :: lit "  int w;") ++ lit "end" ++ []).
  assert (Hcall : forall args vs bs x y, all_values run_ec (InText after_line) args vs -> binds [] line_defaults [lit "x"; lit "y"] vs bs ->
    bs = [(lit "x", NInt x); (lit "y", NInt y)] -> 
    forallb (fun c => negb (py_isbreak c)) (Z_text x) = true -> trim true [] (Z_text x) = Z_text x ->
    forallb (fun c => negb (py_isbreak c)) (Z_text y) = true -> trim true [] (Z_text y) = Z_text y ->
    value run_ec (InText after_line) (NApply (NVar (RList []) (raw (lit "line"))) args [] None 0) (NRaw (line_text x y))).
  { intros args vs bs x y Ha Hb -> B1 B2 B3 B4. eapply VA_call with (later := []) (f := lit "line") (nm := []) (before := after_n).
    - reflexivity.
    - intros [].
    - reflexivity.
    - exact Ha.
    - apply NV_end.
    - constructor.
    - intros k [].
    - exact Hb.
    - apply line_body; [apply at_front|apply at_next; [discriminate|apply at_front]|assumption..]. }
  apply PG_run; [exists []; split; [reflexivity|]; split; [constructor|intros H; discriminate H]|]. cbn [indent_then].
  apply PG_applied with (v := NRaw (line_text 5 42)) (u := line_text 5 42).
  { eapply (Hcall _ [NInt 5; NInt 42] _ 5%Z 42%Z); [|apply BI_positional; [intros []|discriminate|apply BI_positional; [intros []|discriminate|apply BI_end]]|reflexivity..].
    apply AV_more; [apply VA_constant, int_constant|]. apply AV_more; [|apply AV_end].
    apply VA_builtin with (vs := [NInt 2; NInt 21]).
    - apply AV_more; [apply VA_name; apply at_front|]. apply AV_more; [apply VA_constant, int_constant|apply AV_end].
    - intros [H|[H|[]]]; discriminate H.
    - apply two_ints with (f := b_mul); [intros imported; reflexivity|intros st; reflexivity]. }
  { apply SH_value, VT_raw. }
  { change (placed run_ec (lit "  ") (join [10] [lit "int v5 = 42;"; lit "  int w;"]) (lit "int v5 = 42;" ++ 10 :: lit "    int w;")). apply placed_lines; [discriminate|reflexivity..]. }
  apply PG_run; [reflexivity|]. cbn [indent_then].
  apply PG_applied with (v := NRaw (line_text 6 3)) (u := line_text 6 3).
  { eapply (Hcall _ [NInt 6] _ 6%Z 3%Z); [|apply BI_positional; [intros []|discriminate|apply BI_default; [intros []|apply at_front|apply BI_end]]|reflexivity..].
    apply AV_more; [apply VA_constant, int_constant|]. apply AV_end. }
  { apply SH_value, VT_raw. }
  { change (placed run_ec [] (join [10] [lit "int v6 = 3;"; lit "  int w;"]) (lit "int v6 = 3;" ++ 10 :: lit "  int w;")). apply placed_lines; [discriminate|reflexivity..]. }
  apply PG_run; [reflexivity|]. apply PG_end.
Qed.
Lemma one_meaning w cfg input output pr t c out1 fb1 out2 fb2 : document (is_python output) (skip_of cfg (is_python output)) t c ->
  (is_python output = true -> no_magic is_word t) -> k_browse cfg = false -> ~ In 13 t ->
  page (run_ectx w cfg input output pr) [] (IndStr []) untold (runs true [] c) out1 fb1 ->
  page (run_ectx w cfg input output pr) [] (IndStr []) untold (runs true [] c) out2 fb2 -> out1 = out2 /\ fb1 = fb2.
Proof.
  intros Hd Hm Hb Hr H1 H2. set (cx := run_ctx w cfg input output). set (s0 := run_start t input output pr).
  destruct (source_reads cx 0 (input_key input) s0 (match input with Some p => DPath p | None => DNone end) t c Hd) as (l & El & Hl).
  - intros Hy _. apply Hm, Hy.
  - unfold s0, run_start. cbn [y_source]. rewrite dict_get_set', teqb_refl. rewrite unify_id by exact Hr. reflexivity.
  - destruct (page_text (run_ectx w cfg input output pr) (yuparse cx 1) Hb (source_parses cx 0) _ _ _ _ l s0 0%nat 0%nat H1 Hl eq_refl) as (s1 & E1 & F1 & _).
    destruct (page_text (run_ectx w cfg input output pr) (yuparse cx 1) Hb (source_parses cx 0) _ _ _ _ l s0 0%nat 0%nat H2 Hl eq_refl) as (s2 & E2 & F2 & _).
    destruct (evals_det _ _ _ _ _ _ _ _ _ _ _ E1 E2) as (E & _ & ->). injection E as ->. split; [reflexivity|]. rewrite <- F1. exact F2.
Qed.
Lemma run_case : document (is_python (Some (lit "a.c"))) (skip_of run_config (is_python (Some (lit "a.c")))) run_source run_contents /\
  page (run_ectx world0 run_config (Some (lit "a.yu-c")) (Some (lit "a.c")) process0) [] (IndStr []) untold (runs true [] run_contents) run_output untold.
Proof. split; [exact run_document|exact run_page]. Qed.

(** ** Case: two passes, each with its own output *)
(* ($set lang ($ __PASSAGE__ ( (`c) (`py))))($set __OUTPUT_FILE__ [gen.($ lang)])in ($ lang) *)
Definition languages : expr := EList [(false, EQuote (lit "c")); (false, EQuote (lit "py"))].
Definition show_lang : expr := app1 "lang" [].
Definition file_text : expr := EText DSquare (lit "gen." ++ show show_lang) (chars_of (lit "gen.") ++ [inr (ExprSpec.tree show_lang)]).
Definition set_lang : construct := CSet (BName (lit "lang")) (app1 "__PASSAGE__" [languages]).
Definition set_file : construct := CSet (BName (lit "__OUTPUT_FILE__")) file_text.
Definition pass_source : text := show_construct set_lang ++ show_construct set_file ++ lit "in " ++ show show_lang.
Definition pass_contents : contents := inr (tree_construct set_lang) :: inr (tree_construct set_file) :: chars_of (lit "in ") ++ [inr (ExprSpec.tree show_lang)].
Lemma pass_source_is : pass_source = lit "($set lang ($ __PASSAGE__ ( (`c) (`py))))($set __OUTPUT_FILE__ [gen.($ lang)])in ($ lang)".
Proof. vm_compute. reflexivity. Qed.
Lemma show_lang_wf : wf false SkipNone show_lang.
Proof. apply app1_wf; [ident|constructor]. Qed.
Lemma pass_document : document false SkipNone pass_source pass_contents.
Proof.
  assert (W1 : construct_ok false SkipNone set_lang).
  { apply co_set; [cbn [binder_ok]; ident|]. apply app1_wf; [ident|]. apply Forall_cons; [split; [unfold languages; well|reflexivity]|constructor]. }
  pose proof (co_expr _ _ show_lang show_lang_wf Logic.I) as WL.
  assert (W2 : construct_ok false SkipNone set_file).
  { apply co_set; [cbn [binder_ok]; ident|]. apply wf_text; [exact Logic.I|]. rewrite <- (app_nil_r (show show_lang)). change (show show_lang) with (show_construct (CExpr show_lang)). change (ExprSpec.tree show_lang) with (tree_construct (CExpr show_lang)).
    revert WL. generalize (CExpr show_lang). intros cl WL. change (lit "gen.") with [103; 101; 110; 46]. cbn [chars_of map app]. do 4 (wchar; [intros [_ [? E]]; discriminate E|]). apply wr_construct; [exact WL|]. apply wr_end. reflexivity. }
  unfold pass_source, pass_contents. rewrite <- (app_nil_r (show show_lang)). change (show show_lang) with (show_construct (CExpr show_lang)). change (ExprSpec.tree show_lang) with (tree_construct (CExpr show_lang)).
  revert W1 W2 WL. generalize set_lang set_file (CExpr show_lang). intros c1 c2 cl W1 W2 WL. change (lit "in ") with [105; 110; 32]. cbn [chars_of map app].
  apply wr_construct; [exact W1|]. apply wr_construct; [exact W2|]. do 3 dchar. apply wr_construct; [exact WL|]. apply wr_end. exact Logic.I.
Qed.
Definition language (k : nat) : text := match k with O => lit "c" | _ => lit "py" end.
Definition lang_values : list node := [NStr (raw (lit "c")); NStr (raw (lit "py"))].
Lemma pass_pages k v rep : nth_error lang_values k = Some v -> let ec := run_ectx world0 (at_passage run_config k) (Some (lit "a.yu-c")) (Some (lit "a.c")) process0 in
  (forall imported, e_builtin ec imported (lit "__PASSAGE__") = None) /\
  value ec (InText [(lit "lang", EOpen)]) (ExprSpec.tree languages) (NList lang_values) /\
  page ec [(lit "lang", EValue v)] (IndStr []) (Feedback None rep) (tl (runs true [] pass_contents)) (lit "in " ++ language k) (Feedback (Some (lit "gen." ++ language k)) rep).
Proof.
  intros Hn ec. assert (Hv : v = NStr (raw (language k)) /\ (k = 0%nat \/ k = 1%nat)). { destruct k as [|[|k]]; [| |destruct k; discriminate Hn]; injection Hn as <-; auto. } destruct Hv as [-> Hk].
  assert (HL : value ec (InText [(lit "lang", EValue (NStr (raw (language k))))]) (NApply (NVar (RList []) (raw (lit "lang"))) [] [] None 0) (NStr (raw (language k)))).
  { eapply VA_show; [apply VA_name; apply at_front|apply VT_str]. }
  assert (PL : placed ec [] (language k) (language k)).
  { unfold placed. change (e_trim ec) with true. cbn iota. destruct (every_text_follows [] [language k]) as (w & F & E); [discriminate| |].
    - destruct Hk as [-> | ->]; repeat constructor.
    - assert (Ew : w = language k) by (rewrite <- E; destruct Hk as [-> | ->]; reflexivity). rewrite Ew in F. exact F. }
  split; [reflexivity|]. split.
  - apply VA_constant. split; [|reflexivity]. apply DA_list. repeat (apply Forall_cons; [apply DA_str|]). apply Forall_nil.
  - set (q1 := NPlain (raw (lit "gen.")) IndFalse false). set (q2 := NPlain (raw (lit "in ")) IndFalse false).
    assert (E : tl (runs true [] pass_contents) = [NSet (LAtom (raw (lit "__OUTPUT_FILE__"))) (NText [q1; NApply (NVar (RList []) (raw (lit "lang"))) [] [] None 0] 0 0); q2; NApply (NVar (RList []) (raw (lit "lang"))) [] [] None 0]) by (vm_compute; reflexivity). rewrite E. clear E.
    eapply PG_output with (v := NRaw (lit "gen." ++ language k ++ [])) (u := lit "gen." ++ language k ++ []) (n := lit "gen." ++ language k).
    + reflexivity.
    + eapply VA_text with (vs := [q1; NStr (raw (language k))]).
      * repeat (apply Forall_cons; [exact Logic.I|]). apply Forall_nil.
      * apply AV_more; [apply VA_constant; split; [apply DA_plain|reflexivity]|]. apply AV_more; [exact HL|apply AV_end].
      * apply WR_other; [intros []|apply SH_plain|]. eapply WR_applied; [exact Logic.I|apply SH_value, VT_str|exact PL|apply WR_end].
    + left. reflexivity.
    + rewrite app_nil_r. destruct Hk as [-> | ->]; (apply UQ_plain; [intros q r Eq; vm_compute in Eq; injection Eq as <- _; unfold QuoteSpec.quote; lia|]; match goal with |- QuoteSpec.denotes ?p ?w ?t => let w' := eval vm_compute in w in change (QuoteSpec.denotes p w' w') end; repeat (apply QuoteSpec.DN_char; [unfold QuoteSpec.ascii; lia|discriminate|]); apply QuoteSpec.DN_end).
    + apply PG_run; [reflexivity|]. enough (Q : forall t, t = language k ++ [] -> page ec [(lit "lang", EValue (NStr (raw (language k))))] IndFalse (Feedback (Some (lit "gen." ++ language k)) rep) [NApply (NVar (RList []) (raw (lit "lang"))) [] [] None 0] t (Feedback (Some (lit "gen." ++ language k)) rep)) by (apply Q; rewrite app_nil_r; reflexivity). intros t ->.
      eapply PG_applied; [exact HL|apply SH_value, VT_str|exact PL|apply PG_end].
Qed.
Lemma pass_case : exists n0, forall n, (n0 <= n)%nat ->
  passes (run_pass world0 run_config 1 n pass_source (Some (lit "a.yu-c")) (Some (lit "a.c")) (fun _ => process0)) 0 [] true 2
    [PP true (lit "in c") None (Some (lit "gen.c")) true 0; PP true (lit "in py") None (Some (lit "gen.py")) false 0].
Proof.
  apply (element_per_pass world0 run_config 0 pass_source pass_source pass_contents (raw (lit "lang")) (raw (lit "__PASSAGE__")) (ExprSpec.tree languages) lang_values
    (tree_construct set_file) (tl (tl (runs true [] pass_contents))) (fun k => lit "in " ++ language k) (fun k => Some (lit "gen." ++ language k))).
  - apply unified_id. vm_compute. intuition discriminate.
  - exact pass_document.
  - discriminate.
  - reflexivity.
  - vm_compute. reflexivity.
  - reflexivity.
  - discriminate.
  - discriminate.
  - discriminate.
  - intros k v Hn ec. destruct (pass_pages k v false Hn) as (H1 & H2 & _). split; [exact H1|]. split; [exact H2|]. intros rep. apply (pass_pages k v rep Hn).
Qed.
Lemma pass_computed : pass_loop 5 (run_pass world0 run_config 1 60 pass_source (Some (lit "a.yu-c")) (Some (lit "a.c")) (fun _ => process0)) 0 [] =
  Some (true, [PP true (lit "in c") None (Some (lit "gen.c")) true 0; PP true (lit "in py") None (Some (lit "gen.py")) false 0]).
Proof. vm_compute. reflexivity. Qed.
