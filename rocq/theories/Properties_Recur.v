(** * Functions that call themselves: C59 *)
From Coq Require Import List NArith ZArith Bool Factorial.
From Verif Require Import PyStr LexSpec Ast Final Shell ShellSpec EvalSpec Eval Parse PpSpec Pp PpCases ExprSpec CoreSpec RunSpec RunCases RecurCases MutualCases LoopCases ConfSpec ReadCases.
Import ListNotations.
Open Scope list_scope.
Open Scope N_scope.

(** ** C59: a function that decides by its argument may call itself *)
(** The source [t] has two constructs: it sets a name to a function of one
    parameter that is one of two branches, by a condition that needs the
    parameter, and it calls the function. If the condition chooses the branch [y]
    where the parameter stands for the argument, and [y] has the value [z] where
    the parameter and the function itself are known, the run yields the text of
    [z]. Nothing is asked of the other branch. *)
Theorem C59_call_gives_the_branch w cfg d t t' input output pr n q r h x c a b v vc y z u out python sk :
  language_of output python -> comments_of python (k_skip cfg) sk ->
  unified t t' -> document python sk t'
    [inr (NSet (LAtom n) (NLambda [([], q, NNone)] (NApply (NCond c a b) [] [] None 0))); inr (NApply (NVar r h) [x] [] None 0)] ->
  (python = true -> no_magic is_word t') -> k_browse cfg = false ->
  s_txt h = s_txt n -> s_txt n <> lit "__OUTPUT_FILE__" -> s_txt q <> lit "..." -> s_txt q <> lit "__va_args__" ->
  let ec := run_ectx w cfg input output pr in
  let f := (s_txt n, ECases (s_txt q) c a b) in
  needs ec (s_txt q) c -> value ec (InText [f]) x v -> constant_value v ->
  value ec (InBody [s_txt q; s_txt n] [(s_txt q, v)]) c vc -> selects vc a b y ->
  value ec (InText [(s_txt q, EValue v); f]) y z -> value_text z u -> placed ec [] u out ->
  exists n0, forall k, (n0 <= k)%nat ->
    pp w cfg (S d) k t input output pr = Ok (PP true (replace_steady (reduce_emptiness (k_reduce cfg) out)) None None false 0).
Proof. exact (read_cases_run w cfg d t t' input output pr n q r h x c a b v vc y z u out python sk). Qed.
Print Assumptions C59_call_gives_the_branch.
Example C59_pick_source : pick_source = lit "($set f \n.($ ($ mul n n) ? ($ sub n 3) | 0))($ f 12)".
Proof. exact pick_source_is. Qed.
Example C59_pick : let ec := run_ec in
  let c := call (lit "sub") [name (lit "n"); NInt 3] in let a := call (lit "mul") [name (lit "n"); name (lit "n")] in
  let f := (lit "f", ECases (lit "n") c a (NInt 0)) in
  document false SkipNone pick_source
    [inr (NSet (LAtom (raw (lit "f"))) (NLambda [([], raw (lit "n"), NNone)] (NApply (NCond c a (NInt 0)) [] [] None 0))); inr (NApply (name (lit "f")) [NInt 12] [] None 0)] /\
  needs ec (lit "n") c /\ value ec (InText [f]) (NInt 12) (NInt 12) /\ constant_value (NInt 12) /\
  value ec (InBody [lit "n"; lit "f"] [(lit "n", NInt 12)]) c (NInt 9) /\ selects (NInt 9) a (NInt 0) a /\
  value ec (InText [(lit "n", EValue (NInt 12)); f]) a (NInt 144) /\ value_text (NInt 144) (lit "144") /\ placed ec [] (lit "144") (lit "144").
Proof. exact pick_case. Qed.
(** A function [F] over the natural numbers that is [base] at zero and follows
    from the number and the value before by a built-in function [op]: written as
    a function that calls itself, it is computed at every [k]. *)
Theorem C59_recursion_over_numbers op f p base F k :
  identifier op -> identifier f -> identifier p -> f <> p -> op <> f -> op <> p -> lit "sub" <> f -> lit "sub" <> p ->
  p <> lit "__va_args__" -> f <> lit "__OUTPUT_FILE__" ->
  F 0%nat = base -> (forall j, builtin_gives run_ec op [NInt (Z.of_nat (S j)); NInt (F j)] (NInt (F (S j)))) ->
  exists n0, forall n, (n0 <= n)%nat ->
    pp world0 run_config 1 n
      (lit "($set " ++ f ++ lit " \" ++ p ++ lit ".($ ($ " ++ op ++ lit " " ++ p ++ lit " ($ " ++ f ++ lit " ($ sub " ++ p ++ lit " 1))) ? " ++ p ++ lit " | " ++
       Z_text base ++ lit "))($ " ++ f ++ lit " " ++ Z_text (Z.of_nat k) ++ lit ")") (Some (lit "a.yu-c")) (Some (lit "a.c")) process0 =
      Ok (PP true (Z_text (F k)) None None false 0).
Proof. exact (rec_run_text op f p base F k). Qed.
Print Assumptions C59_recursion_over_numbers.
Theorem C59_factorial k : exists n0, forall n, (n0 <= n)%nat ->
  pp world0 run_config 1 n (lit "($set fact \n.($ ($ mul n ($ fact ($ sub n 1))) ? n | 1))($ fact " ++ Z_text (Z.of_nat k) ++ lit ")") (Some (lit "a.yu-c")) (Some (lit "a.c")) process0 =
    Ok (PP true (Z_text (Z.of_nat (fact k))) None None false 0).
Proof. exact (fact_run k). Qed.
Print Assumptions C59_factorial.
(** A function whose branches are texts: each call leaves its piece behind those
    of the calls inside it *)
Theorem C59_rows k : exists n0, forall n, (n0 <= n)%nat ->
  pp world0 run_config 1 n (lit "($set row \n.($ [($ row ($ sub n 1))x($ n);] ? n | []))($ row " ++ Z_text (Z.of_nat k) ++ lit ")") (Some (lit "a.yu-c")) (Some (lit "a.c")) process0 =
    Ok (PP true (concat (map (fun i => lit "x" ++ Z_text (Z.of_nat i) ++ lit ";") (List.seq 1 k))) None None false 0).
Proof. exact (row_run_text k). Qed.
Print Assumptions C59_rows.
(** Two functions that call each other *)
Theorem C59_mutual k : exists n0, forall n, (n0 <= n)%nat ->
  pp world0 run_config 1 n (lit "($set even \n.($ ($ odd ($ sub n 1)) ? n | 1))($set odd \n.($ ($ even ($ sub n 1)) ? n | 0))($ even " ++ Z_text (Z.of_nat k) ++ lit ")")
    (Some (lit "a.yu-c")) (Some (lit "a.c")) process0 = Ok (PP true (Z_text (if Nat.even k then 1 else 0)) None None false 0).
Proof. exact (even_run_text k). Qed.
Print Assumptions C59_mutual.
Example C59_computed : pp world0 run_config 1 60 (lit "($set fact \n.($ ($ mul n ($ fact ($ sub n 1))) ? n | 1))($ fact 5)") (Some (lit "a.yu-c")) (Some (lit "a.c")) process0 =
  Ok (PP true (lit "120") None None false 0).
Proof. vm_compute. reflexivity. Qed.
(** The same function cannot be used in the body of another one: when that is
    defined, its parameter has no value, the condition is open, and the calls are
    followed without an end. No amount of steps is enough. *)
Theorem C59_from_another_function_refuted :
  ~ exists n r, pp world0 run_config 1 n (lit "($set fact \n.($ ($ mul n ($ fact ($ sub n 1))) ? n | 1))($set g \x.($ fact x))($ g 3)") (Some (lit "a.yu-c")) (Some (lit "a.c")) process0 = Ok r.
Proof. exact loop_never. Qed.
Print Assumptions C59_from_another_function_refuted.
