(** * Definitions: C51 *)
From Coq Require Import List NArith ZArith Bool String.
From Verif Require Import PyStr Ast Lex Parse Final Eval Builtin EnvSpec EvalSpec EvalCases DefSpec DefFacts DefCases.
Import ListNotations.
Open Scope list_scope.

(** ** C51: a definition holds in the rest of its block *)
Theorem C51_definition_holds_in_the_rest ec parse lv ast y rest ind e s v f1 e1 s1 f s2 t e3 s3 :
  e_browse ec = false -> NoDup (declared lv) -> no_setting lv ->
  evals ec parse ast (no_values (declared lv) :: e) s v (f1 :: e1) s1 -> assigned lv v s1 f s2 ->
  evals ec parse (NT (NSet lv ast :: y :: rest) ind) e s (NRaw t) e3 s3 <->
  exists f', evals ec parse (NT (trimmed_next ind (y :: rest)) ind) (f :: e1) s2 (NRaw t) (f' :: e3) s3.
Proof. exact (definition_in_rest ec parse lv ast y rest ind e s v f1 e1 s1 f s2 t e3 s3). Qed.
Print Assumptions C51_definition_holds_in_the_rest.
Example C51_case :
  NoDup (declared pair_lv) /\
  evals ec0 noparse (NList [NInt 1; NInt 2]) (no_values (declared pair_lv) :: pair_env) st0
    (NList [NInt 1; NInt 2]) (no_values (declared pair_lv) :: pair_env) st0 /\
  assigned pair_lv (NList [NInt 1; NInt 2]) st0 pair_frame (warn "there is nothing to assign" st0) /\
  evals ec0 noparse pair_text pair_env st0 (NRaw (lit "1,2!")) pair_env (warn "there is nothing to assign" st0).
Proof. exact pair_case. Qed.

Theorem C51_macro_holds_in_the_rest ec parse name pars body y rest ind e s t e3 s3 :
  e_browse ec = false -> NoDup (map s_txt pars) ->
  evals ec parse (NT (NMacro name pars body :: y :: rest) ind) e s (NRaw t) e3 s3 <->
  exists f', evals ec parse (NT (trimmed_next ind (y :: rest)) ind)
    ([(s_txt name, NMClosure body (no_values (map s_txt pars)) (Some name) None)] :: e) s (NRaw t) (f' :: e3) s3.
Proof. exact (macro_in_rest ec parse name pars body y rest ind e s t e3 s3). Qed.
Print Assumptions C51_macro_holds_in_the_rest.

(** a name stands for its innermost definition *)
Theorem C51_reference ec parse r a f e s v : gives f (s_txt a) v -> v <> NBound ->
  evals ec parse (NVar r a) (f :: e) s v (f :: e) s.
Proof. exact (reference_value ec parse r a f e s v). Qed.
Print Assumptions C51_reference.

(** let: the same for one expression *)
Theorem C51_let ec parse lv ast form e s v f1 e1 s1 f s2 w f2 e2 s3 :
  NoDup (declared lv) -> evals ec parse ast (no_values (declared lv) :: e) s v (f1 :: e1) s1 -> assigned lv v s1 f s2 ->
  evals ec parse form (f :: e1) s2 w (f2 :: e2) s3 -> evals ec parse (NLet lv ast form) e s w e2 s3.
Proof. exact (let_value ec parse lv ast form e s v f1 e1 s1 f s2 w f2 e2 s3). Qed.
Print Assumptions C51_let.
Example C51_let_case : evals ec0 noparse let_node [[(lit "a", NInt 1); (lit "b", NInt 2)]] st0
  (NList [NInt 3; NInt 2]) [[(lit "a", NInt 1); (lit "b", NInt 2)]] st0.
Proof. exact let_case. Qed.

(** the definitions in the expansion of a macro hold in the rest of the text behind the call *)
Theorem C51_expanded_definitions ec parse x rest ind l i e s e1 s1 t e2 s2 :
  e_browse ec = false -> x <> NComment -> evals ec parse x e s (NEmbed (NT l i)) e1 s1 ->
  evals ec parse (NT (indented ind l ++ rest) ind) e1 s1 (NRaw t) e2 s2 ->
  evals ec parse (NT (x :: rest) ind) e s (NRaw t) e2 s2.
Proof. exact (embedded_rest ec parse x rest ind l i e s e1 s1 t e2 s2). Qed.
Print Assumptions C51_expanded_definitions.
Example C51_expanded_case :
  (exists l i s, evals ec0 set_parse (NEval (NRaw (lit "($set a 1)x")) None None) [] st0 (NEmbed (NT l i)) [] s) /\
  exists s, evals ec0 set_parse
    (NT [NEval (NRaw (lit "($set a 1)x")) None None; call (var "a") []; words "!"] (IndStr [])) [] st0 (NRaw (lit "x1!")) [] s.
Proof. exact embedded_case. Qed.

(** a new definition cannot use the value the name has before it: the name means itself *)
Theorem C51_redefinition_refuted :
  (exists v, evals ec0 noparse redefinition [] st0 v [] st0 /\ is_term v = false) /\
  (exists v s, evals ec0 noparse redefinition_with_let [] st0 v [] s /\ is_term v = false).
Proof. exact (conj redefinition_case redefinition_let_case). Qed.
Print Assumptions C51_redefinition_refuted.
