(** * Evaluation

    Statements only; each proof is one lemma of the facts files. *)
From Coq Require Import List NArith ZArith.
From Verif Require Import PyStr Ast Eval EnvSpec EvalSpec EvalFacts EvalFacts2 EvalFacts3 EvalFacts4 EvalCases.
Import ListNotations.
Open Scope list_scope.

(** ** C06: a comment contributes nothing; at the start of a line it takes the
    following white space with it *)
Theorem C06_comment_contributes_nothing : forall ec parse ind rest e s,
  same_outcomes ec parse (NT (NComment :: rest) ind) e s (NT (trimmed_next ind rest) ind) e s.
Proof. exact comment_vanishes. Qed.
Print Assumptions C06_comment_contributes_nothing.

Example C06_comment_case :
  evals ec0 noparse (NText [words "a"; NComment; words " b"] 0 0) [] st0 (NRaw (lit "ab")) [] st0 /\
  evals ec0 noparse (NT [words "a"; NComment; words " b"] IndFalse) [] st0 (NRaw (lit "a b")) [] st0.
Proof. exact comment_case. Qed.

(** ** C14: definitions do not leak *)
Theorem C14_names_of_scopes_kept : forall ec parse x e s v e' s',
  evals ec parse x e s v e' s' -> scopes e' = scopes e.
Proof. exact evals_keep_names. Qed.
Print Assumptions C14_names_of_scopes_kept.

Theorem C14_only_emit_changes_values : forall allow ec parse x e s v e' s',
  emits_only_ctx allow ec parse -> emits_only allow x = true -> emits_only_env allow e = true ->
  evals ec parse x e s v e' s' ->
  env_agrees allow e e' /\ emits_only_env allow e' = true /\ emits_only allow v = true.
Proof. exact evals_only_emit. Qed.
Print Assumptions C14_only_emit_changes_values.

Example C14_case :
  evals ec0 noparse scope_text scope_env st0 (NRaw (lit "5,6,7"))
    [[(lit "a", NInt 1); (lit "l", NList [NInt 8])]] st0.
Proof. exact scope_case. Qed.
Example C14_only_emit_case :
  emits_only_ctx (teqb (lit "l")) ec0 noparse /\ emits_only (teqb (lit "l")) scope_text = true /\
  emits_only_env (teqb (lit "l")) scope_env = true.
Proof. exact only_emit_case. Qed.

(** ** C15: the outcome does not depend on the recursion budget *)
Theorem C15_more_budget_same_result : forall ec parse n m x e s,
  (n <= m)%nat -> yueval ec parse n x e s <> Fuel -> yueval ec parse m x e s = yueval ec parse n x e s.
Proof. exact more_budget. Qed.
Print Assumptions C15_more_budget_same_result.

Theorem C15_deterministic : forall ec parse x e s r1 r2,
  finishes ec parse x e s r1 -> finishes ec parse x e s r2 -> r1 = r2.
Proof. exact outcome_unique. Qed.
Print Assumptions C15_deterministic.

Example C15_case :
  yueval ec0 noparse 4 scope_text scope_env st0 = Fuel /\
  yueval ec0 noparse 20 scope_text scope_env st0
  = Ok (NRaw (lit "5,6,7"), [[(lit "a", NInt 1); (lit "l", NList [NInt 8])]], st0).
Proof. exact budget_case. Qed.

(** ** C18: a list applied to functions *)
Theorem C18_list_maps : forall ec parse fn args file pos e s l e1 s1 fs e2 s2 v e' s',
  evals ec parse fn e s (NList l) e1 s1 -> evals ec parse (NList args) e1 s1 (NList fs) e2 s2 ->
  evals ec parse (NApply fn args [] file pos) e s v e' s' <->
  exists w, v = NList w /\ maps ec parse fs l e2 s2 w e' s'.
Proof. exact map_spec. Qed.
Print Assumptions C18_list_maps.

Example C18_case :
  evals ec0 noparse (numbers [3; 1; 2]%Z) [] st0 (numbers [3; 1; 2]%Z) [] st0 /\
  evals ec0 noparse (call (numbers [3; 1; 2]%Z)
    [var "inc"; NLambda [([], name0 "x", NNone)] (NCond (call (var "eq") [call (var "x") []; NInt 2]) NNone (call (var "x") []))])
    [] st0 (numbers [4; 3]%Z) [] (add_hazard (name0 "inc") st0).
Proof. exact map_case. Qed.

(** ** C19: subscripts *)
Theorem C19_subscript_selects : forall ec parse fn args file pos e s z e1 s1 vs e2 s2 l v,
  evals ec parse fn e s (NInt z) e1 s1 -> evals ec parse (NList args) e1 s1 (NList vs) e2 s2 ->
  is_term (NList vs) = true -> indexed vs l -> element l z v ->
  evals ec parse (NApply fn args [] file pos) e s v e2 s2.
Proof. exact subscript_selects. Qed.
Print Assumptions C19_subscript_selects.

Theorem C19_subscript_defined : forall l z,
  (- Z.of_nat (length l) <= z)%Z -> exists v, element l z v.
Proof. exact element_exists. Qed.
Print Assumptions C19_subscript_defined.

(** A number below minus the length is an IndexError, not nothing. *)
Theorem C19_too_negative_is_an_error : forall ec parse fn args file pos e s z e1 s1 vs e2 s2 l,
  evals ec parse fn e s (NInt z) e1 s1 -> evals ec parse (NList args) e1 s1 (NList vs) e2 s2 ->
  is_term (NList vs) = true -> indexed vs l -> (z < - Z.of_nat (length l))%Z ->
  finishes ec parse (NApply fn args [] file pos) e s (Err (Exn IndexError "list index out of range")).
Proof. exact subscript_too_negative. Qed.
Print Assumptions C19_too_negative_is_an_error.

Theorem C19_nothing_beyond_either_end_refuted :
  finishes ec0 noparse (call (NInt (-4)) [numbers [3; 1; 2]%Z]) [] st0
    (Err (Exn IndexError "list index out of range")).
Proof. exact subscript_refutation. Qed.
Print Assumptions C19_nothing_beyond_either_end_refuted.

Example C19_case :
  evals ec0 noparse (call (NInt (-1)) [numbers [3; 1; 2]%Z]) [] st0 (NInt 2) [] st0 /\
  evals ec0 noparse (call (NInt 1) [NInt 5; NInt 6]) [] st0 (NInt 6) [] st0 /\
  evals ec0 noparse (call (NInt 7) [numbers [3; 1; 2]%Z]) [] st0 NNone [] st0 /\
  indexed [numbers [3; 1; 2]%Z] (map NInt [3; 1; 2]%Z) /\ element (map NInt [3; 1; 2]%Z) (-1) (NInt 2).
Proof. exact subscript_case. Qed.

(** ** C20: conditionals *)
Theorem C20_only_the_chosen_branch : forall ec parse c a b e s v e1 s1 l,
  evals ec parse c e s v e1 s1 -> selects v a b l ->
  same_outcomes ec parse (NCond c a b) e s l e1 s1.
Proof. exact cond_selected. Qed.
Print Assumptions C20_only_the_chosen_branch.

Theorem C20_failing_condition : forall ec parse c a b e s x,
  finishes ec parse c e s (Err x) -> finishes ec parse (NCond c a b) e s (Err x).
Proof. exact cond_fails. Qed.
Print Assumptions C20_failing_condition.

Theorem C20_open_condition_evaluates_no_branch : forall ec parse c a b e s v e1 s1,
  evals ec parse c e s v e1 s1 -> is_term v = false ->
  evals ec parse (NCond c a b) e s (NCondClosure v a b) e1 s1.
Proof. exact cond_open. Qed.
Print Assumptions C20_open_condition_evaluates_no_branch.

Example C20_case :
  evals ec0 noparse (call (var "eq") [NInt 2; NInt 2]) [] st0 (NInt 1) [] st0 /\
  selects (NInt 1) (NInt 5) failing (NInt 5) /\ selects (NRaw []) failing (NInt 6) (NInt 6) /\
  evals ec0 noparse (NCond (call (var "eq") [NInt 2; NInt 2]) (NInt 5) failing) [] st0 (NInt 5) [] st0.
Proof. exact cond_case. Qed.
Example C20_failing_case :
  finishes ec0 noparse failing [] st0 (Err (Exn TypeError "yueval: undefined variable")).
Proof. exact failing_fails. Qed.

(** ** C21: emit *)
Theorem C21_emit_head : forall ec parse reg a e s x l e',
  lookup e (s_txt a) = Some (NList (x :: l)) -> env_same_but (s_txt a) (NList l) e e' ->
  evals ec parse (NEmit reg a NNone) e s x e' s.
Proof. exact emit_head. Qed.
Print Assumptions C21_emit_head.

Theorem C21_emit_exhausted : forall ec parse reg a e s,
  lookup e (s_txt a) = Some (NList []) -> evals ec parse (NEmit reg a NNone) e s NNone e s.
Proof. exact emit_exhausted. Qed.
Print Assumptions C21_emit_exhausted.

Theorem C21_successive_emits : forall ec parse reg a n l e s e',
  Forall one_element l ->
  lookup e (s_txt a) = Some (NList l) -> env_same_but (s_txt a) (NList (skipn n l)) e e' ->
  evals ec parse (NList (repeat (NEmit reg a NNone) n)) e s (NList (firstn n l)) e' s.
Proof. exact emit_many. Qed.
Print Assumptions C21_successive_emits.

Theorem C21_emit_with_function : forall ec parse reg a f e s x l e1 w e2 s2 e3,
  lookup e (s_txt a) = Some (NList (x :: l)) -> function_expr f ->
  env_same_but (s_txt a) (NList l) e e1 ->
  evals ec parse (NApply f [NList l] [] None 0) e1 s w e2 s2 ->
  env_same_but (s_txt a) w e2 e3 -> evals ec parse (NEmit reg a f) e s x e3 s2.
Proof. exact emit_with. Qed.
Print Assumptions C21_emit_with_function.

Theorem C21_emit_undefined : forall ec parse reg a f e s,
  unknown e (s_txt a) -> finishes ec parse (NEmit reg a f) e s (Err (Exn TypeError "yueval: undefined variable")).
Proof. exact emit_undefined. Qed.
Print Assumptions C21_emit_undefined.

Example C21_case :
  let e := [[(lit "l", numbers [7; 8; 9]%Z); (lit "m", NInt 1)]] in
  let emit := NEmit (RList []) (name0 "l") NNone in
  lookup e (lit "l") = Some (NList (map NInt [7; 8; 9]%Z)) /\ Forall one_element (map NInt [7; 8; 9]%Z) /\
  evals ec0 noparse (NList (repeat emit 2)) e st0 (numbers [7; 8]%Z)
    [[(lit "l", numbers [9]%Z); (lit "m", NInt 1)]] st0 /\
  evals ec0 noparse (NEmit (RList []) (name0 "l") (var "reversed")) e st0 (NInt 7)
    [[(lit "l", numbers [9; 8]%Z); (lit "m", NInt 1)]] st0.
Proof. exact emit_case. Qed.

(** ** C22: skip *)
Theorem C22_skip_rest_of_imported_module : forall ec parse x m l ind e s e1 s1,
  x <> NComment -> evals ec parse x e s NSkip e1 s1 -> complete m ->
  same_outcomes ec parse (NT (x :: m ++ NImportEnd :: l) ind) e s (NT l ind) e1 s1.
Proof. exact skip_to_end_of_module. Qed.
Print Assumptions C22_skip_rest_of_imported_module.

Theorem C22_skip_rest_of_main_module : forall ec parse x r ind e s e1 s1,
  x <> NComment -> evals ec parse x e s NSkip e1 s1 -> never_closed r ->
  same_outcomes ec parse (NT (x :: r) ind) e s (NT [] ind) e1 s1.
Proof. exact skip_to_end. Qed.
Print Assumptions C22_skip_rest_of_main_module.

Theorem C22_complete_rest_is_not_closed : forall m, complete m -> never_closed m.
Proof. exact never_closed_complete. Qed.
Print Assumptions C22_complete_rest_is_not_closed.

(** The text of a block, item by item ([block] of EvalSpec) *)
Theorem C22_text_block : forall ec parse items ind e s v e' s',
  e_browse ec = false ->
  evals ec parse (NT items ind) e s v e' s' <->
  exists w, block ec parse ind items e s w e' s' /\
    v = if is_term (NT w ind) then NRaw (plain ec (NT w ind)) else NT w ind.
Proof. exact text_spec. Qed.
Print Assumptions C22_text_block.

Example C22_case :
  let skip := call (var "skip") [] in
  evals ec0 noparse skip [] st0 NSkip [] st0 /\
  complete [words "b"; NImportBegin; words "c"; NImportEnd] /\
  evals ec0 noparse
    (NText [NImportBegin; words "a"; skip; words "b"; NImportBegin; words "c"; NImportEnd; NImportEnd; words "d"] 0 0)
    [] st0 (NRaw (lit "ad")) [] st0 /\
  never_closed [words "b"; NImportBegin; words "c"; NImportEnd].
Proof. exact skip_case. Qed.

(** ** C25: lists *)
Theorem C25_list_evaluation : forall ec parse l e s v e' s',
  evals ec parse (NList l) e s v e' s' <-> exists w, v = NList w /\ list_evals ec parse l e s w e' s'.
Proof. exact list_spec. Qed.
Print Assumptions C25_list_evaluation.

Example C25_case :
  let e := [[(lit "l", numbers [7; 8]%Z)]] in
  evals ec0 noparse (NList [NInt 1; NEmbed (var "l"); call (NInt 9) [numbers [5]%Z]; call (var "inc") [NInt 1]]) e st0
    (numbers [1; 7; 8; 2]%Z) e st0.
Proof. exact list_case. Qed.

(** ** C37: pass p of a passage list sees element p and asks for another pass iff there is one *)
Theorem C37_passage_element : forall ec parse fn args file pos e s a e1 s1 v l e2 s2 p,
  evals ec parse fn e s (NSpecial a) e1 s1 -> s_txt a = lit "__PASSAGE__" ->
  evals ec parse (NList args) e1 s1 (NList [v]) e2 s2 -> list_of v = Some l -> e_passage ec = Z.of_nat p ->
  evals ec parse (NApply fn args [] file pos) e s (nth p l NNone) e2 (set_repeat (Nat.ltb (S p) (length l)) s2).
Proof. exact passage_spec. Qed.
Print Assumptions C37_passage_element.

Example C37_passage_case :
  evals (ec_at true 1) noparse (call (var "__PASSAGE__") [NList [NRaw (lit "x"); NRaw (lit "y"); NRaw (lit "z")]]) [] st0
    (NRaw (lit "y")) [] (set_repeat true st0).
Proof. exact passage_case. Qed.
