(** * Written expressions: C10, C48 *)
From Coq Require Import List NArith ZArith Bool String.
From Verif Require Import PyStr LexSpec Ast Lex Parse ParseSpec ParseCases PpSpec ProtectSpec ExprSpec ExprShow DocSpec ExprCases.
Import ListNotations.
Open Scope list_scope.
Open Scope N_scope.

(** ** C10: expressions parse as they are written *)
(** The reader of expressions, set off at a text [t] in which the expression [e] is
    written, with nothing behind it that would continue it, returns the tree of [e] and
    stops behind [t] and the white space [g] that follows. *)
Theorem C10_expression_reads_back cx imp n e t f p s g rest :
  spelled (c_python cx) (c_skip cx) e t -> (List.length t < n)%nat -> Forall white g -> stops_at white rest ->
  follows e (g ++ rest) -> no_branch (g ++ rest) ->
  exists x q, k_form (knot cx imp n) (Src (t ++ g ++ rest) f p) s = Ok (Src rest f q, Some x, s) /\ bare x = tree e.
Proof. exact (expression_reads cx imp n e t f p s g rest). Qed.
Print Assumptions C10_expression_reads_back.
Example C10_irregular_case :
  spelled false SkipNone irregular (lit "($f" ++ [10] ++ lit "  0x1F * ( a ,,b) \k" ++ [9] ++ lit "($quotec)+7L" ++ [10] ++ lit "($let(x y )( 1 )x \let )\f )") /\
  follows irregular ([32] ++ lit ")") /\ no_branch ([32] ++ lit ")").
Proof. exact irregular_case. Qed.
(** Every expression can be written: one way is [show], with single spaces. *)
Theorem C10_usual_writing python m e : wf python m e -> spelled python m e (show e).
Proof. exact (wf_spelled python m e). Qed.
Print Assumptions C10_usual_writing.
Example C10_expression_case : wf false SkipNone sample /\
  show sample = lit "($lib::sub::fun -5 *( &late *(`a (b) ')) \l1..\a.\b:""q\"""".\...($$ add a b) \key ($let ( x y) () x) ? c | 0 ? d \other \(&ps).( 255))" /\
  delimited ([32] ++ lit ")") /\ no_branch ([32] ++ lit ")").
Proof. exact sample_case. Qed.
Example C10_text_case : wf false SkipNone text_sample /\
  show text_sample = lit "($ \n.[a[1]($g {n[1] + 1}).] ]" ++ [10] ++ lit "x]" ++ [10] ++ lit "($n)" ++ [10] ++ lit "  [)".
Proof. exact text_sample_case. Qed.
(** Two expressions written alike, in the same place, have the same tree. *)
Theorem C10_unambiguous python m e1 e2 t rest :
  spelled python m e1 t -> spelled python m e2 t -> follows e1 rest -> follows e2 rest -> no_branch rest -> tree e1 = tree e2.
Proof. exact (unambiguous python m e1 e2 t rest). Qed.
Print Assumptions C10_unambiguous.
(** A whole source of text, literals, comments, quotations and written
    constructs is read as its contents, from the first to the last character:
    its pieces are the longest runs of text, each with the indentation behind
    it, and between them the literals, quotations, comments and constructs. *)
Theorem C10_source_reads_back cx d key s decl t c :
  document (c_python cx) (c_skip cx) t c ->
  (c_python cx = true -> key = c_main cx -> no_magic is_word t) ->
  dict_get key (y_source s) = Some (decl, t) ->
  exists l, yuparse cx (S d) key s = Ok (l, s) /\ stands_for l c.
Proof. exact (source_reads cx d key s decl t c). Qed.
Print Assumptions C10_source_reads_back.
Example C10_source_case : document false SkipNone (lit "x(" ++ show sample ++ [10] ++ lit "($set y 2) (`($)) ""($z)""")
  (chars_of (lit "x(") ++ inr (tree sample) :: inl 10 :: inr (NSet (LAtom (raw (lit "y"))) (NInt 2)) :: inl 32 :: inr (NStr (raw (lit "($)"))) :: inl 32 :: [inr (NStr (raw (lit """($z)""")))]).
Proof. exact source_case. Qed.
Example C10_constructs_case : document false SkipNone
  (lit "($! ($) )($macro M (a b )a(b))($emit x 1)($emit &x)($code a(b))(${}(1)+2)($f ,,a;b (c),d\e;;)")
  (map (fun c => inr (tree_construct c)) constructs).
Proof. exact constructs_case. Qed.
(** The restriction on positional arguments in [wf] is needed: a lambda whose
    first parameter has a default cannot be written as a positional argument. *)
Theorem C10_default_lambda_argument_refuted :
  show default_argument = lit "($ f \x:1.( x))" /\ wf false SkipNone (ELambda [Param [] (lit "x") (Some (ENum 1))] (EList [(false, v "x")])) /\
  exists m, yuparse (session []) 1 (lit "main.yu") (started "($ f \x:1.( x))") = Err m.
Proof. exact default_argument_case. Qed.
Print Assumptions C10_default_lambda_argument_refuted.

(** ** C48: a construct is recognised by its keyword as a whole word *)
(** False: a name that only begins with a keyword is split. *)
Theorem C48_keyword_prefix_refuted :
  identifier (lit "setup") /\ ~ In (lit "setup") keywords /\
  match yuparse (session []) 1 (lit "main.yu") (started "($setup 1)") with
  | Ok (l, _) => map bare l = [NSet (LAtom (raw (lit "up"))) (NInt 1)]
  | _ => False
  end.
Proof. exact prefix_case. Qed.
Print Assumptions C48_keyword_prefix_refuted.
(** This happens to every name that begins so. *)
Theorem C48_set_splits_names cx imp n a e g t z f p s rest :
  identifier a -> Forall white g -> spelled (c_python cx) (c_skip cx) e t -> stops_at name_char (g ++ t) ->
  closed_by (lit "set") z -> follows e z -> (List.length (lit "($" ++ (lit "set" ++ a) ++ g ++ t ++ z) <= n)%nat ->
  exists x q, text_item cx imp (knot cx imp n) (Src ((lit "($" ++ (lit "set" ++ a) ++ g ++ t ++ z) ++ rest) f p) s = Ok (Src rest f q, Some [x], s) /\
    bare x = NSet (LAtom (raw a)) (tree e).
Proof. exact (prefix_set cx imp n a e g t z f p s rest). Qed.
Print Assumptions C48_set_splits_names.
(** A name that begins with no keyword is applied. *)
Theorem C48_other_names_are_applied_partial cx imp n a args named r f p s rest :
  identifier a -> Forall (fun w => ~ begins w a) keywords -> delimited r ->
  arguments (c_python cx) (c_skip cx) (Some a) args named r -> (List.length (lit "($" ++ a ++ r) <= n)%nat ->
  exists x q, text_item cx imp (knot cx imp n) (Src ((lit "($" ++ a ++ r) ++ rest) f p) s = Ok (Src rest f q, Some [x], s) /\
    bare x = tree (EApp false true (EVar (VName [] a)) args named).
Proof. exact (name_applied cx imp n a args named r f p s rest). Qed.
Print Assumptions C48_other_names_are_applied_partial.
Example C48_case : identifier (lit "reset") /\ Forall (fun w => ~ begins w (lit "reset")) keywords.
Proof. exact reset_case. Qed.
