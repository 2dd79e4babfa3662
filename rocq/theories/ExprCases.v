(** * Concrete cases and final forms for written expressions *)
From Coq Require Import List NArith ZArith Bool String Lia ZifyBool ZifyNat ZifyN.
From Verif Require Import PyStr PyStrFacts Ast Lex LexSpec LexFacts LexCases Parse ParseSpec ParseCases PpSpec PpFacts PpFacts3 HeaderFacts ProtectSpec ProtectFacts ProtectCases ExprSpec ExprFacts ExprFacts2 ExprFacts3 ExprShow DocSpec DocFacts.
Import ListNotations.
Open Scope list_scope.
Open Scope N_scope.

Lemma expression_reads cx imp n e t f p s g rest :
  spelled (c_python cx) (c_skip cx) e t -> (List.length t < n)%nat -> Forall white g -> stops_at white rest ->
  follows e (g ++ rest) -> no_branch (g ++ rest) ->
  exists x q, k_form (knot cx imp n) (Src (t ++ g ++ rest) f p) s = Ok (Src rest f q, Some x, s) /\ bare x = tree e.
Proof.
  intros W L G R D B. destruct n as [|n]; [lia|].
  destruct (knot_reads cx imp n e t W ltac:(lia) f p s (g ++ rest) D B) as (x & q & E & Bx). rewrite E.
  rewrite gap_run; [|exact G|exact R]. eauto.
Qed.
Lemma unambiguous python m e1 e2 t rest : spelled python m e1 t -> spelled python m e2 t -> follows e1 rest -> follows e2 rest -> no_branch rest -> tree e1 = tree e2.
Proof.
  intros W1 W2 F1 F2 B. set (cx := Ctx python m (lit "a") [] (fun _ => None) (fun t => t) (fun _ => Ok tt) (fun c => Ok c) (fun _ => [])).
  destruct (knot_reads cx (fun _ _ => Fuel) (List.length t) e1 t W1 ltac:(lia) None 0%Z (started "") rest F1 B) as (x1 & q1 & E1 & B1).
  destruct (knot_reads cx (fun _ _ => Fuel) (List.length t) e2 t W2 ltac:(lia) None 0%Z (started "") rest F2 B) as (x2 & q2 & E2 & B2).
  rewrite E2 in E1. injection E1 as _ E1. congruence.
Qed.
Lemma source_reads cx d key s decl t c : document (c_python cx) (c_skip cx) t c ->
  (c_python cx = true -> key = c_main cx -> no_magic is_word t) -> dict_get key (y_source s) = Some (decl, t) ->
  exists l, yuparse cx (S d) key s = Ok (l, s) /\ stands_for l c.
Proof.
  intros P M D. apply (parse_document cx d key s decl t c P); [|exact D].
  destruct (c_python cx) eqn:Py; [|left; exact Py]. destruct (teqb_spec key (c_main cx)) as [Em|N]; [|right; left; exact N].
  right. right. intros s'. apply no_magic_header, M; auto.
Qed.

(** ** An expression with every kind of construct *)
Definition v (a : string) : expr := EVar (VName [] (lit a)).
Definition sample : expr :=
  EApp false true (EVar (VName [lit "lib"; lit "sub"] (lit "fun")))
    [(false, ENum (-5)); (true, EList [(false, EVar (VLate (lit "late"))); (true, EQuote (lit "a (b) '"))]);
     (false, ELambda [Param [lit "l1"] (lit "a") None; Param [] (lit "b") (Some (EStr 34 (lit "q\"""))); Rest]
               (EApp true false (v "add") [(false, v "a"); (false, v "b")] []))]
    [(lit "key", ECond (v "c") (ELet (BNames [lit "x"; lit "y"]) (EList []) (v "x")) (Some (ECond (v "d") (ENum 0) None)));
     (lit "other", ELambdaV (VLate (lit "ps")) (EList [(false, ENum 255)]))].
Ltac not_keyword := intros _ _; let kw := eval vm_compute in keywords in change keywords with kw;
    repeat first [apply Forall_nil|apply Forall_cons]; intros [? E]; discriminate E.
Ltac ident := apply identifier_dec; reflexivity.
Ltac well := repeat first
  [ apply wf_num | apply wf_quote; [apply permitted_dec; reflexivity|apply balanced_dec; reflexivity]
  | apply wf_var; cbn [var_ok]; first [ident|split; [repeat first [apply Forall_nil|apply Forall_cons; [ident|]]|ident]]
  | apply wf_list; repeat first [apply Forall_nil|apply Forall_cons]; cbn [snd]
  | apply wf_cond; [| |reflexivity|reflexivity|intros ? [= <-]]
  | apply wf_par; [repeat first [apply Forall_nil|apply Forall_cons; [ident|]]|ident|let X := fresh in intros ? X; try discriminate X; injection X as <-]
  | apply wf_rest ].
Lemma sample_wf : wf false SkipNone sample.
Proof.
  unfold sample, v. apply wf_app.
  - well.
  - intros _ _. let kw := eval vm_compute in keywords in change keywords with kw.
    repeat first [apply Forall_nil|apply Forall_cons]; intros [r E]; discriminate E.
  - repeat first [apply Forall_nil|apply Forall_cons]; cbn [fst snd]; (split; [|intros; reflexivity || discriminate]).
    + well.
    + well.
    + apply wf_lambda; [discriminate| |apply wf_app; [well|discriminate|repeat first [apply Forall_nil|apply Forall_cons]; cbn [fst snd]; (split; [|reflexivity]); well|constructor]|reflexivity].
      repeat first [apply Forall_nil|apply Forall_cons]; well.
      apply wf_str; [reflexivity|auto|]. apply li_char; [discriminate..|]. apply li_escape; [discriminate|]. constructor.
  - repeat first [apply Forall_nil|apply Forall_cons]; cbn [fst snd]; (split; [ident|split; [discriminate|]]).
    + apply wf_cond; [well| |reflexivity|reflexivity|intros ? [= <-]; apply wf_cond; [well|well|reflexivity|reflexivity|intros ? [=]]].
      apply wf_let; [split; [repeat first [apply Forall_nil|apply Forall_cons; [ident|]]|discriminate]|well|well].
    + apply wf_lambdav; [cbn [var_ok binder_ok]; ident|well|reflexivity].
Qed.
Lemma sample_case : wf false SkipNone sample /\
  show sample = lit "($lib::sub::fun -5 *( &late *(`a (b) ')) \l1..\a.\b:""q\"""".\...($$ add a b) \key ($let ( x y) () x) ? c | 0 ? d \other \(&ps).( 255))" /\
  delimited ([32] ++ lit ")") /\ no_branch ([32] ++ lit ")").
Proof.
  split; [exact sample_wf|]. split; [vm_compute; reflexivity|]. split.
  - split; [cbn; chars|]. intros d r E. discriminate E.
  - intros g c r E F. destruct g as [|a [|b g]]; cbn in E.
    + injection E as <- _. split; discriminate.
    + injection E as _ <- _. split; discriminate.
    + injection E as _ _ E. destruct g; discriminate E.
Qed.

(** ** An expression in another writing *)
Definition until_text : expr := EText (DUntil (lit ")")) (lit "b") (chars_of (lit "b")).
Definition irregular : expr :=
  EApp false true (v "f")
    [(false, ENum 31); (true, EList [(false, v "a"); (false, until_text)]); (false, ENum 7); (false, ELet (BNames [lit "x"; lit "y"]) (EList [(false, ENum 1)]) (v "x"))]
    [(lit "k", EQuote (lit "c"))].
Definition irregular_text : text := lit "($f" ++ [10] ++ lit "  0x1F * ( a ,,b) \k" ++ [9] ++ lit "($quotec)+7L" ++ [10] ++ lit "($let(x y )( 1 )x \let )\f )".
Lemma irregular_spelled : spelled false SkipNone irregular irregular_text.
Proof.
  assert (W : forall c, c = 32 \/ c = 10 \/ c = 9 -> white c) by (intros c H; unfold white, blank, line_end; lia).
  assert (W0 : Forall white []) by constructor. assert (W1 : Forall white [32]) by (repeat constructor; apply W; lia).
  assert (De : forall c r, (~ name_char c /\ c <> 58 /\ c <> 34 /\ c <> 39) -> c <> 46 -> delimited (c :: r)).
  { intros c r H N. split; [cbn [stops_at]; tauto|]. intros d r' E. injection E as -> _. congruence. }
  assert (Va : forall a, identifier (lit a) -> spelled false SkipNone (v a) (lit a)) by (intros a Ha; apply (sp_var _ _ (VName [] (lit a))); split; [constructor|exact Ha]).
  change irregular_text with (lit "($" ++ (if false then [36] else []) ++ [] ++ lit "f" ++
    ([10; 32; 32] ++ star false ++ [] ++ ([] ++ (48 :: 120 :: 49 :: [70]) ++ []) ++
     ([32] ++ star true ++ [32] ++ (40 :: [32] ++ star false ++ [] ++ lit "a" ++ [32] ++ star false ++ [] ++ (lit ",," ++ lit "b" ++ ending (DUntil (lit ")"))) ++ [] ++ lit ")") ++
      ([32] ++ 92 :: lit "k" ++ [9] ++ (lit "($quote" ++ lit "c" ++ lit ")") ++
       ([] ++ star false ++ [] ++ ([43] ++ [55] ++ [76]) ++
        ([10] ++ star false ++ [] ++ (lit "($let" ++ [] ++ (40 :: [] ++ param_text [(lit "x", [32]); (lit "y", [32])] ++ lit ")") ++ [] ++ (40 :: [32] ++ star false ++ [] ++ ([] ++ [49] ++ []) ++ [32] ++ lit ")") ++ [] ++ lit "x" ++ [32] ++ 92 :: lit "let" ++ [32] ++ lit ")") ++
         ([] ++ 92 :: lit "f" ++ [32] ++ lit ")"))))))).
  apply sp_app; [exact W0|apply Va; ident|apply De; [chars|lia]|not_keyword|].
  apply ar_item; [repeat constructor; apply W; lia|exact W0| |reflexivity|apply De; [chars|lia]|].
  { apply (sp_num _ _ [] (fun v => v) _ (value 16 [49; 70])); [constructor|apply il_hex; [left; reflexivity|unfold hex_digit, decimal_digit; lia|repeat constructor; unfold hex_digit, decimal_digit; lia]|left; reflexivity]. }
  apply ar_item; [exact W1|exact W1| |discriminate|exact Logic.I|].
  { apply sp_list. apply it_item; [exact W1|exact W0|apply Va; ident|apply De; [chars|lia]|].
    apply it_item; [exact W1|exact W0| |exists []; reflexivity|apply it_end; exact W0].
    apply sp_text; [right; left; reflexivity|apply op_as|]. change (lit "b") with [98]. cbn [chars_of map].
    apply wr_char; [apply ps_ANY_spec; reflexivity|discriminate|discriminate|no_begin|no_begin|intros []|discriminate| |].
    - intros [[? E]|[[? E]|[X [[? E]|(? & ? & _ & _ & [? E])]]]]; discriminate E.
    - apply wr_end. right. right. split; [reflexivity|]. left. exists []. reflexivity. }
  apply ar_named; [ident|discriminate|exact W1|repeat constructor; apply W; lia| |cbn; chars|exact Logic.I|].
  { apply sp_quote; [right; reflexivity|apply permitted_dec; reflexivity|apply balanced_dec; reflexivity]. }
  apply ar_item; [exact W0|exact W0| |reflexivity|apply De; [chars|lia]|].
  { apply (sp_num _ _ [43] (fun v => v) [55] (value 10 [55]) [76]); [constructor|apply il_dec; [unfold decimal_digit; lia|constructor|left; lia]|right; right; reflexivity]. }
  apply ar_item; [repeat constructor; apply W; lia|exact W0| |reflexivity|exact Logic.I|].
  { apply sp_let with (z := [32] ++ 92 :: lit "let" ++ [32] ++ lit ")"); [exact W0| |exact W0| |exact W0|apply Va; ident|apply cb_tag; exact W1|exact Logic.I|exact Logic.I|apply De; [chars|lia]].
    - apply (bt_names [] [(lit "x", [32]); (lit "y", [32])]); [exact W0| |discriminate]. cbn [params_ok]. split; [ident|split; [exact W1|split; [right; discriminate|split; [ident|split; [exact W1|split; [left; reflexivity|exact Logic.I]]]]]].
    - apply sp_list. apply it_item; [exact W1|exact W0| |apply De; [chars|lia]|apply it_end; exact W1].
      apply (sp_num _ _ [] (fun v => v) [49] (value 10 [49]) []); [constructor|apply il_dec; [unfold decimal_digit; lia|constructor|left; lia]|left; reflexivity]. }
  apply ar_tag; [exact W0|exact W1].
Qed.
Lemma irregular_case : spelled false SkipNone irregular irregular_text /\ follows irregular ([32] ++ lit ")") /\ no_branch ([32] ++ lit ")").
Proof. split; [exact irregular_spelled|]. split; [exact Logic.I|]. apply sample_case. Qed.

(** ** Texts in an expression *)
(** a text with brackets and an application inside it, an infix expression and a
    block, in one application *)
Definition infix_part : expr := EText DBrace (lit "n[1] + 1") (chars_of (lit "n[1] + 1")).
Definition inner_app : expr := EApp false true (v "g") [(false, infix_part)] [].
Definition square_text : expr :=
  EText DSquare (lit "a[1]" ++ show inner_app ++ lit ".") (chars_of (lit "a[1]") ++ inr (tree inner_app) :: chars_of (lit ".")).
Definition block_text : expr :=
  EText (DBlock [32; 32]) (lit "x]" ++ [10] ++ show (EApp false true (v "n") [] [])) (chars_of (lit "x]" ++ [10]) ++ [inr (tree (EApp false true (v "n") [] []))]).
Definition text_sample : expr :=
  EApp false false (ELambda [Param [] (lit "n") None] square_text) [(false, block_text)] [].
Ltac wchar := apply wr_char; [apply ps_ANY_spec; reflexivity|discriminate|discriminate|no_begin|no_begin|intros []|discriminate| |].
Ltac open_brackets := let H := fresh in intros [H ?]; discriminate H.
Lemma text_sample_wf : wf false SkipNone text_sample.
Proof.
  assert (W1 : wf false SkipNone infix_part).
  { apply wf_text; [exact Logic.I|]. change (lit "n[1] + 1") with [110; 91; 49; 93; 32; 43; 32; 49]. cbn [chars_of map].
    do 8 (wchar; [intros [? E]; discriminate E|]). apply wr_end. exact Logic.I. }
  assert (W2 : wf false SkipNone inner_app).
  { apply wf_app; [unfold v; well|not_keyword| |constructor]. apply Forall_cons; [split; [exact W1|reflexivity]|apply Forall_nil]. }
  assert (W3 : wf false SkipNone square_text).
  { apply wf_text; [exact Logic.I|]. change (lit "a[1]" ++ show inner_app ++ lit ".") with (97 :: 91 :: 49 :: 93 :: show_construct (CExpr inner_app) ++ [46]).
    change (chars_of (lit "a[1]") ++ inr (tree inner_app) :: chars_of (lit ".")) with (inl 97 :: inl 91 :: inl 49 :: inl 93 :: inr (tree_construct (CExpr inner_app)) :: [inl 46]).
    wchar; [intros [_ [? E]]; discriminate E|]. wchar; [intros [_ [? E]]; discriminate E|]. wchar; [open_brackets|]. wchar; [open_brackets|].
    apply wr_construct; [apply co_expr; [exact W2|exact Logic.I]|]. wchar; [intros [_ [? E]]; discriminate E|]. apply wr_end. reflexivity. }
  assert (W4 : wf false SkipNone block_text).
  { apply wf_text; [repeat constructor; left; reflexivity|].
    change (lit "x]" ++ [10] ++ show (EApp false true (v "n") [] [])) with (120 :: 93 :: 10 :: show_construct (CExpr (EApp false true (v "n") [] [])) ++ []).
    change (chars_of (lit "x]" ++ [10]) ++ [inr (tree (EApp false true (v "n") [] []))]) with ([inl 120; inl 93; inl 10] ++ inr (tree_construct (CExpr (EApp false true (v "n") [] []))) :: []).
    assert (NL : forall n (c r : text), c <> [] -> forall a, hd 0 c = a -> a <> 10 -> a <> 13 -> ~ closes_at (DBlock [32; 32]) n (c ++ r)).
    { intros n [|x c] r N a Ha A1 A2 (y & b & L & _ & [[z E]|[z E]]); [destruct (N eq_refl)|destruct (N eq_refl)|..];
        cbn in Ha; injection E as -> _; unfold line_end in L; lia. }
    wchar; [apply (NL _ [120] _ ltac:(discriminate) 120); [reflexivity|lia|lia]|]. wchar; [apply (NL _ [93] _ ltac:(discriminate) 93); [reflexivity|lia|lia]|].
    wchar.
    - intros (y & b & L & B & [[z E]|[z E]]); injection E as <- E; (destruct b as [|w b]; [discriminate E|]); injection E as <- _; inversion B as [|? ? X]; subst; destruct X; discriminate.
    - apply wr_construct; [|apply wr_end; exact Logic.I]. apply co_expr; [|exact Logic.I].
      apply wf_app; [unfold v; well|not_keyword|constructor|constructor]. }
  apply wf_app; [|discriminate|apply Forall_cons; [split; [exact W4|reflexivity]|apply Forall_nil]|constructor].
  apply wf_lambda; [discriminate|apply Forall_cons; [apply wf_par; [apply Forall_nil|ident|discriminate]|apply Forall_nil]|exact W3|reflexivity].
Qed.
Lemma text_sample_case : wf false SkipNone text_sample /\
  show text_sample = lit "($ \n.[a[1]($g {n[1] + 1}).] ]" ++ [10] ++ lit "x]" ++ [10] ++ lit "($n)" ++ [10] ++ lit "  [)".
Proof. split; [exact text_sample_wf|vm_compute; reflexivity]. Qed.

(** ** A source *)
Ltac dchar := apply wr_char; [apply ps_ANY_spec; reflexivity|discriminate|discriminate|no_begin|no_begin|intros []|discriminate|intros []|].
Lemma source_case : document false SkipNone (lit "x(" ++ show sample ++ [10] ++ lit "($set y 2) (`($)) ""($z)""")
  (chars_of (lit "x(") ++ inr (tree sample) :: inl 10 :: inr (NSet (LAtom (raw (lit "y"))) (NInt 2)) :: inl 32 :: inr (NStr (raw (lit "($)"))) :: inl 32 :: [inr (NStr (raw (lit """($z)""")))]).
Proof.
  change (document false SkipNone (120 :: 40 :: show_construct (CExpr sample) ++ 10 :: show_construct (CSet (BName (lit "y")) (ENum 2)) ++ 32 :: lit "(`" ++ lit "($)" ++ 41 :: 32 :: 34 :: lit "($z)" ++ 34 :: [])
    (inl 120 :: inl 40 :: inr (tree_construct (CExpr sample)) :: inl 10 :: inr (tree_construct (CSet (BName (lit "y")) (ENum 2))) :: inl 32 :: inr (NStr (raw (lit "($)"))) :: inl 32 :: [inr (NStr (raw (34 :: lit "($z)" ++ [34])))])).
  do 2 dchar. apply wr_construct; [apply co_expr; [exact sample_wf|exact Logic.I]|]. dchar. apply wr_construct; [apply co_set; [cbn [var_ok binder_ok]; ident|well]|]. dchar.
  apply wr_quote; [apply permitted_dec; reflexivity|apply balanced_dec; reflexivity|]. dchar.
  apply wr_literal; [reflexivity|auto|repeat (apply li_char; [discriminate|discriminate|]); constructor|apply wr_end; exact Logic.I].
Qed.

(** comments, macros, outputs of variables, texts behind two commas and texts in
    parentheses *)
Definition comma_text : expr := EText DSemi (lit "a;b (c),d\e") (chars_of (lit "a;b (c),d\e")).
Definition code_text : expr := EText DCode (lit " a(b)") (chars_of (lit " a(b)")).
Definition infix_text : expr := EText DInfix (lit "(1)+2") (chars_of (lit "(1)+2")).
Definition comma_app : expr := EApp false true (v "f") [(false, comma_text)] [].
Definition constructs : list construct :=
  [CRemoved (lit " ($) "); CMacro (lit "M") [lit "a"; lit "b"] (lit "a(b)"); CEmit (VName [] (lit "x")) (Some (ENum 1)); CEmit (VLate (lit "x")) None;
   CExpr code_text; CExpr infix_text; CExpr comma_app].
Lemma written_constructs python m l : Forall (construct_ok python m) l ->
  document python m (flat_map show_construct l) (map (fun c => inr (tree_construct c)) l).
Proof.
  induction 1 as [|c l H F IH]; cbn [flat_map map]; [apply wr_end; exact Logic.I|]. apply wr_construct; assumption.
Qed.
Ltac not_comma := intros [[? E]|[[? E]|[X [[? E]|(? & ? & _ & _ & [? E])]]]]; try discriminate E; discriminate X.
Lemma comma_app_wf : wf false SkipNone comma_app.
Proof.
  apply wf_app; [unfold v; well|not_keyword| |constructor]. apply Forall_cons; [split; [|reflexivity]|apply Forall_nil].
  apply wf_text; [exact Logic.I|]. change (lit "a;b (c),d\e") with [97; 59; 98; 32; 40; 99; 41; 44; 100; 92; 101]. cbn [chars_of map].
  do 9 (wchar; [not_comma|]). wchar; [|wchar; [not_comma|]; apply wr_end; exact Logic.I].
  intros [[? E]|[[? E]|[_ [[? E]|(a & g & Ha & Fg & [y E])]]]]; try discriminate E. cbn [app closing] in E. change (lit ";;") with [59; 59] in E. injection E as E.
  destruct a as [|x a]; [destruct Ha|]. injection E as <- E. destruct a as [|x a]; [|destruct Ha as [_ Ha]; apply Forall_inv in Ha; injection E as <- _; exfalso; chars].
  destruct g as [|x g]; [discriminate E|]. injection E as <- _. apply Forall_inv in Fg. exfalso. chars.
Qed.
Lemma constructs_case : document false SkipNone
  (lit "($! ($) )($macro M (a b )a(b))($emit x 1)($emit &x)($code a(b))(${}(1)+2)($f ,,a;b (c),d\e;;)")
  (map (fun c => inr (tree_construct c)) constructs).
Proof.
  change (lit "($! ($) )($macro M (a b )a(b))($emit x 1)($emit &x)($code a(b))(${}(1)+2)($f ,,a;b (c),d\e;;)") with (flat_map show_construct constructs).
  apply written_constructs. unfold constructs.
  apply Forall_cons; [apply co_removed; [apply permitted_dec; reflexivity|apply balanced_dec; reflexivity]|].
  apply Forall_cons; [apply co_macro; [ident|apply Forall_cons; [ident|apply Forall_cons; [ident|apply Forall_nil]]|apply permitted_dec; reflexivity|apply balanced_dec; reflexivity]|].
  apply Forall_cons; [apply co_emit; [split; [apply Forall_nil|ident]|intros e E; injection E as <-; well]|].
  apply Forall_cons; [apply co_emit; [cbn [var_ok]; ident|discriminate]|].
  apply Forall_cons; [apply co_expr; [|exact Logic.I]|apply Forall_cons; [apply co_expr; [|exact Logic.I]|apply Forall_cons; [apply co_expr; [exact comma_app_wf|exact Logic.I]|apply Forall_nil]]].
  - apply wf_text; [exact Logic.I|]. change (lit " a(b)") with [32; 97; 40; 98; 41]. cbn [chars_of map].
    do 5 (wchar; [intros [X [? E]]; first [discriminate E|discriminate X]|]). apply wr_end. reflexivity.
  - apply wf_text; [exact Logic.I|]. change (lit "(1)+2") with [40; 49; 41; 43; 50]. cbn [chars_of map].
    do 5 (wchar; [intros [X [? E]]; first [discriminate E|discriminate X]|]). apply wr_end. reflexivity.
Qed.

(** ** A lambda with a default as an argument *)
Definition default_argument : expr :=
  EApp false false (v "f") [(false, ELambda [Param [] (lit "x") (Some (ENum 1))] (EList [(false, v "x")]))] [].
Lemma default_argument_case :
  show default_argument = lit "($ f \x:1.( x))" /\ wf false SkipNone (ELambda [Param [] (lit "x") (Some (ENum 1))] (EList [(false, v "x")])) /\
  exists m, yuparse (session []) 1 (lit "main.yu") (started "($ f \x:1.( x))") = Err m.
Proof.
  split; [reflexivity|]. split.
  - apply wf_lambda; [discriminate|repeat first [apply Forall_nil|apply Forall_cons]; well|well|reflexivity].
  - eexists. vm_compute. reflexivity.
Qed.
(** ** Names that begin with a keyword *)
Lemma prefix_case : identifier (lit "setup") /\ ~ In (lit "setup") keywords /\
  match yuparse (session []) 1 (lit "main.yu") (started "($setup 1)") with Ok (l, _) => map bare l = [NSet (LAtom (raw (lit "up"))) (NInt 1)] | _ => False end.
Proof.
  split; [ident|]. split; [|vm_compute; reflexivity].
  let kw := eval vm_compute in keywords in change keywords with kw. cbn. intuition discriminate.
Qed.
(** Whatever name follows, the letters of the keyword are taken as the keyword. *)
Lemma prefix_set cx imp n a e g t z f p s rest : identifier a -> Forall white g -> spelled (c_python cx) (c_skip cx) e t -> stops_at name_char (g ++ t) ->
  closed_by (lit "set") z -> follows e z -> (List.length (lit "($" ++ (lit "set" ++ a) ++ g ++ t ++ z) <= n)%nat ->
  exists x q, text_item cx imp (knot cx imp n) (Src ((lit "($" ++ (lit "set" ++ a) ++ g ++ t ++ z) ++ rest) f p) s = Ok (Src rest f q, Some [x], s) /\
    bare x = NSet (LAtom (raw a)) (tree e).
Proof.
  intros Ia G Se St Cb Fo L. destruct n as [|m]; [cbn in L; lia|].
  apply (construct_reads cx imp (knot cx imp (S m)) (S m)) with (c := CSet (BName a) e);
    [intros e' t' W Le; apply knot_reads; [exact W|lia]|apply knot_close|intros dl t' d Dk W Le; apply knot_texts; [exact Dk|exact W|lia]| |exact L].
  apply (sc_set _ _ (BName a) e [] a g t z); [constructor|apply bt_name, Ia|exact G|exact Se|exact Cb|exact St|exact Fo].
Qed.
Lemma arguments_nonempty py m tag args named r : arguments py m tag args named r -> exists c x, r = c :: x.
Proof.
  intros A. assert (N : r <> []); [|destruct r; [congruence|eauto]].
  destruct A as [tag g G|a g1 g2 G1 G2|tag b e args named g1 g2 t r G1 G2 Se Op Fo A|tag a e args named g1 g2 t r Ia Na G1 G2 Se St Fo A].
  - destruct g; discriminate.
  - destruct g1; discriminate.
  - destruct g1; [|discriminate]. destruct b; [discriminate|]. destruct g2; [|discriminate]. apply spelled_head in Se as (c & x & -> & _). discriminate.
  - destruct g1; discriminate.
Qed.
Lemma name_applied cx imp n a args named r f p s rest :
  identifier a -> Forall (fun w => ~ begins w a) keywords -> delimited r ->
  arguments (c_python cx) (c_skip cx) (Some a) args named r -> (List.length (lit "($" ++ a ++ r) <= n)%nat ->
  exists x q, text_item cx imp (knot cx imp n) (Src ((lit "($" ++ a ++ r) ++ rest) f p) s = Ok (Src rest f q, Some [x], s) /\
    bare x = tree (EApp false true (EVar (VName [] a)) args named).
Proof.
  intros Ia K D A L. destruct n as [|n]; [cbn in L; lia|].
  apply (item_reads cx imp (knot cx imp (S n)) (S n)); [intros e t W Le; apply knot_reads; [exact W|lia]|apply knot_close|intros dl t d Dk W Le; apply knot_texts; [exact Dk|exact W|lia]| |exact L|exact Logic.I].
  apply (sp_app _ _ false true (EVar (VName [] a)) args named [] a r); [constructor|apply (sp_var _ _ (VName [] a)); split; [constructor|exact Ia]|exact D| |exact A].
  intros _ _. destruct (arguments_nonempty _ _ _ _ _ _ A) as (c & x & ->). destruct D as [D _]. cbn [stops_at] in D.
  assert (Kw : Forall (fun w => w = lit "{}" \/ Forall name_char w) keywords).
  { unfold keywords. cbn [map]. apply Forall_cons; [left; reflexivity|]. repeat (apply Forall_cons; [right; apply ident_name_chars; ident|]). apply Forall_nil. }
  rewrite Forall_forall in *. intros w Hw B. destruct (Kw w Hw) as [-> | Nw].
  - apply ident_head in Ia as (c' & x' & -> & H). destruct B as [y B]. change (lit "{}") with [123; 125] in B. cbn [app] in B. injection B as B _. chars.
  - apply (K w Hw). apply (begins_prefix w a c x); [|apply CodecFacts.startswith_spec, B]. eapply Forall_impl; [|exact Nw]. cbn. intros y Hy ->. apply D. left. exact Hy.
Qed.
Lemma reset_case : identifier (lit "reset") /\ Forall (fun w => ~ begins w (lit "reset")) keywords.
Proof.
  split; [ident|]. let kw := eval vm_compute in keywords in change keywords with kw.
  repeat first [apply Forall_nil|apply Forall_cons]; intros [r E]; discriminate E.
Qed.
