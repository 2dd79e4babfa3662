(** * Application of functions: C16, C17 *)
From Coq Require Import List NArith ZArith Bool String.
From Verif Require Import PyStr Ast Lex Parse Final Eval Builtin FinalSpec TrimSpec EnvSpec EvalSpec EvalCases ApplyFacts2 ApplyFacts3 ApplyCases.
Import ListNotations.
Open Scope list_scope.

(** ** C16 *)
Theorem C16_arguments_reach_their_parameters ec parse e0 s0 bd ps dflt items c e s fn args vs named nm bs file pos :
  declares ec parse e0 s0 bd ps dflt -> NoDup ps -> ps <> [] ->
  Forall (fun i => match i with LVar _ a => In (s_txt a) ps | LConst v => steady ec parse v end) items ->
  evals ec parse (NLambda bd (NList (map lnode items))) e0 s0 c e0 s0 ->
  evals ec parse fn e s c e s -> evals ec parse (NList args) e s (NList vs) e s -> Forall (steady ec parse) vs ->
  named_values ec parse e s named nm -> incl (names nm) ps -> binds nm dflt ps vs bs ->
  exists ws, Forall2 (lvalue bs) items ws /\ evals ec parse (NApply fn args named file pos) e s (NList ws) e s.
Proof. exact (list_function ec parse e0 s0 bd ps dflt items c e s fn args vs named nm bs file pos). Qed.
Print Assumptions C16_arguments_reach_their_parameters.
Example C16_case :
  declares ec0 noparse [] st0 fn_pars fn_ps [(lit "c", NInt 9)] /\
  evals ec0 noparse (NLambda fn_pars (NList (map lnode fn_items))) [] st0 fn_closure [] st0 /\
  named_values ec0 noparse [] st0 [(raw (lit "a"), NInt 2)] [(lit "a", NInt 2)] /\
  binds [(lit "a", NInt 2)] [(lit "c", NInt 9)] fn_ps [NInt 1] [(lit "a", NInt 2); (lit "b", NInt 1); (lit "c", NInt 9)] /\
  evals ec0 noparse fn_call [] st0 (NList [NInt 9; NInt 2; NInt 7; NInt 1]) [] st0.
Proof. exact (conj fn_declares (conj fn_evaluates (conj fn_values (conj fn_binds fn_case)))). Qed.
Example C16_rest_case : evals ec0 noparse
  (NApply (NLambda [par "a"; par "..."] (NList [var "__va_args__"; var "a"])) [NInt 1; NInt 2; NInt 3] [] None 0) [] st0
  (NList [NList [NInt 2; NInt 3]; NInt 1]) [] st0.
Proof. exact rest_case. Qed.

Theorem C16_unknown_name ec parse e0 s0 bd ps dflt body c e1 s1 e s fn args vs e2 s2 e3 s3 a val named file pos :
  declares ec parse e0 s0 bd ps dflt -> NoDup ps -> ps <> [] ->
  evals ec parse (NLambda bd body) e0 s0 c e1 s1 ->
  evals ec parse fn e s c e2 s2 -> evals ec parse (NList args) e2 s2 (NList vs) e3 s3 -> ~ In (s_txt a) ps ->
  finishes ec parse (NApply fn args ((a, val) :: named) file pos) e s (Err (Exn TypeError "yueval: function has no parameter")).
Proof. exact (unknown_parameter ec parse e0 s0 bd ps dflt body c e1 s1 e s fn args vs e2 s2 e3 s3 a val named file pos). Qed.
Print Assumptions C16_unknown_name.
Example C16_unknown_case : finishes ec0 noparse
  (NApply (NLambda fn_pars (NList (map lnode fn_items))) [NInt 1] [(raw (lit "d"), NInt 2)] None 0) [] st0
  (Err (Exn TypeError "yueval: function has no parameter")).
Proof. exact unknown_case. Qed.

Theorem C16_partial_application ec parse e0 s0 bd ps1 p ps2 dflt items c e s fn args1 vs1 args2 vs2 bs file1 pos1 file2 pos2 :
  declares ec parse e0 s0 bd (ps1 ++ p :: ps2) dflt -> NoDup (ps1 ++ p :: ps2) ->
  Forall (fun i => match i with LVar _ a => In (s_txt a) (ps1 ++ p :: ps2) | LConst v => steady ec parse v end) items ->
  evals ec parse (NLambda bd (NList (map lnode items))) e0 s0 c e0 s0 ->
  evals ec parse fn e s c e s -> evals ec parse (NList args1) e s (NList vs1) e s -> Forall (steady ec parse) vs1 ->
  evals ec parse (NList args2) e s (NList vs2) e s -> Forall (steady ec parse) vs2 ->
  List.length vs1 = List.length ps1 -> ~ In (lit "__va_args__") ps1 -> ~ In p (names dflt) ->
  binds [] dflt (p :: ps2) vs2 bs ->
  exists c1 ws, evals ec parse (NApply fn args1 [] file1 pos1) e s c1 e s /\
    Forall2 (lvalue (combine ps1 vs1 ++ bs)) items ws /\
    forall fn2, evals ec parse fn2 e s c1 e s -> evals ec parse (NApply fn2 args2 [] file2 pos2) e s (NList ws) e s.
Proof. exact (list_function_curried ec parse e0 s0 bd ps1 p ps2 dflt items c e s fn args1 vs1 args2 vs2 bs file1 pos1 file2 pos2). Qed.
Print Assumptions C16_partial_application.
Example C16_partial_application_case : evals ec0 noparse
  (NApply (NApply (NLambda fn_pars (NList (map lnode fn_items))) [NInt 1] [] None 0) [NInt 2; NInt 3] [] None 0) [] st0
  (NList [NInt 3; NInt 1; NInt 7; NInt 2]) [] st0 /\
  evals ec0 noparse (NApply (NLambda fn_pars (NList (map lnode fn_items))) [NInt 1; NInt 2; NInt 3] [] None 0) [] st0
  (NList [NInt 3; NInt 1; NInt 7; NInt 2]) [] st0.
Proof. exact curried_case. Qed.

(** the remaining parameters take their default -- not so for [...], whose default is ignored *)
Theorem C16_default_of_the_rest_refuted : exists c, evals ec0 noparse
  (NApply (NLambda [par "a"; par_default "..." (NInt 5)] (NList [var "__va_args__"; var "a"])) [NInt 1] [] None 0) [] st0 c [] st0 /\
  forall ws, c <> NList ws.
Proof. exact rest_default_case. Qed.
Print Assumptions C16_default_of_the_rest_refuted.

(** ** C17 *)
Theorem C17_template ec parse e0 s0 bd ps dflt items sq q c e s fn args vs named nm bs file pos t :
  e_browse ec = false -> e_trim ec = false ->
  declares ec parse e0 s0 bd ps dflt -> NoDup ps -> ps <> [] -> ~ In (lit "__va_args__") ps ->
  Forall (fun i => match i with TRef _ a _ _ => In (s_txt a) ps | _ => True end) items ->
  evals ec parse (NLambda bd (NText (map tnode items) sq q)) e0 s0 c e0 s0 ->
  evals ec parse fn e s c e s -> evals ec parse (NList args) e s (NList vs) e s ->
  named_values ec parse e s named nm -> incl (names nm) ps -> binds nm dflt ps vs bs ->
  Forall textual vs -> Forall (fun b => textual (snd b)) nm -> Forall (fun b => textual (snd b)) dflt ->
  filled (fun _ u w => w = u) bs (IndStr []) items t ->
  evals ec parse (NApply fn args named file pos) e s (NRaw t) e s.
Proof. exact (template_plain ec parse e0 s0 bd ps dflt items sq q c e s fn args vs named nm bs file pos t). Qed.
Print Assumptions C17_template.
Example C17_case :
  binds [] [] [lit "a"; lit "b"] [NRaw (nl "  x" "  y"); NInt 7] [(lit "a", NRaw (nl "  x" "  y")); (lit "b", NInt 7)] /\
  filled (fun _ u w => w = u) [(lit "a", NRaw (nl "  x" "  y")); (lit "b", NInt 7)] (IndStr []) tpl_items
    (nl "    x" "  y + 7 +   x" ++ 10%N :: lit "  y") /\
  evals (ec_at false 0) noparse tpl_call [] st0 (NRaw (nl "    x" "  y + 7 +   x" ++ 10%N :: lit "  y")) [] st0.
Proof. exact (conj tpl_binds (conj tpl_filled tpl_case_off)). Qed.

Theorem C17_template_indented ec parse e0 s0 bd ps dflt items sq q c e s fn args vs named nm bs file pos t :
  e_browse ec = false -> e_trim ec = true ->
  declares ec parse e0 s0 bd ps dflt -> NoDup ps -> ps <> [] -> ~ In (lit "__va_args__") ps ->
  Forall (fun i => match i with TRef _ a _ _ => In (s_txt a) ps | _ => True end) items ->
  evals ec parse (NLambda bd (NText (map tnode items) sq q)) e0 s0 c e0 s0 ->
  evals ec parse fn e s c e s -> evals ec parse (NList args) e s (NList vs) e s ->
  named_values ec parse e s named nm -> incl (names nm) ps -> binds nm dflt ps vs bs ->
  Forall textual vs -> Forall (fun b => textual (snd b)) nm -> Forall (fun b => textual (snd b)) dflt ->
  filled follows bs (IndStr []) items t ->
  evals ec parse (NApply fn args named file pos) e s (NRaw t) e s.
Proof. exact (template_indented ec parse e0 s0 bd ps dflt items sq q c e s fn args vs named nm bs file pos t). Qed.
Print Assumptions C17_template_indented.
Example C17_indented_case : evals ec0 noparse tpl_call [] st0 (NRaw (nl "  x" "  y + 7 + x" ++ 10%N :: lit "y")) [] st0.
Proof. exact tpl_case_on. Qed.
