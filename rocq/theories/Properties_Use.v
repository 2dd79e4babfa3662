(** * Functions that call functions: C60 *)
From Coq Require Import List NArith ZArith Bool String.
From Verif Require Import PyStr Ast Final Shell Eval Parse EnvSpec EvalSpec EvalCases Pp PpCases CoreSpec RunCases UseSpec UseCases LexSpec ChainCases.
Import ListNotations.
Open Scope list_scope.

(** ** C60: a call means the body with the values of the arguments for the parameters *)
(** The functions [fs] are in force, each in terms of those before it; the variables
    [gs] have their values. An expression with calls of the functions, directly or
    through other functions, evaluates to its meaning: every call is the body of the
    function where the parameters have the values of the arguments.
    Missing from the full statement: a function whose parameter has the name of a
    parameter of a function that calls it, and a conditional in a branch of a
    conditional of a called function. Both are false, see below. Named arguments,
    defaults and calls with fewer arguments inside such functions are not covered. *)
Theorem C60_calls_mean_their_bodies_partial ec parse free parameter fs e gs E v s : e_browse ec = false ->
  in_force ec parse free parameter fs e -> Forall (fun b => data (snd b) /\ known e (fst b) (snd b)) gs ->
  umeans ec parse (placed ec) free parameter fs [] gs [] E v ->
  evals ec parse (utree E) e s v e s.
Proof. exact (call_value ec parse free parameter fs e gs E v s). Qed.
Print Assumptions C60_calls_mean_their_bodies_partial.
Example C60_case : in_force uec noparse ufree uparam three e_label /\
  umeans uec noparse (placed uec) ufree uparam three [] [] [] label_call (NRaw (lit "v5 = 30;")) /\
  evals uec noparse (utree label_call) e_label st0 (NRaw (lit "v5 = 30;")) e_label st0.
Proof. exact label_case. Qed.

(** The definition of such a function succeeds if its body has a value for some arguments, and from
    then on the function is in force. *)
Theorem C60_definition_succeeds ec parse free parameter fs e0 s0 F bd dflt vs w : e_browse ec = false ->
  in_force ec parse free parameter fs e0 -> Forall (fun b => data (snd b) /\ known e0 (fst b) (snd b)) (f_known F) ->
  declares ec parse e0 s0 bd (f_params F) dflt -> f_params F <> [] -> NoDup (f_params F) -> Forall parameter (f_params F) -> simple_choices (f_body F) ->
  umeans ec parse (placed ec) free parameter fs (f_params F) (f_known F) (combine (f_params F) vs) (f_body F) w ->
  List.length (f_params F) = List.length vs -> Forall data vs ->
  exists c, evals ec parse (NLambda bd (utree (f_body F))) e0 s0 c e0 s0.
Proof. exact (defined_value ec parse free parameter fs e0 s0 F bd dflt vs w). Qed.
Print Assumptions C60_definition_succeeds.
Theorem C60_definition_counts ec parse free parameter f F fs e s0 bd dflt c : in_force ec parse free parameter fs e ->
  ~ free f -> ~ parameter f -> ~ In f (names fs) -> ~ In f (names (f_known F)) -> Forall (fun b => ~ In f (names (f_known (snd b)))) fs ->
  Forall (fun b => data (snd b) /\ known e (fst b) (snd b)) (f_known F) ->
  f_params F <> [] -> NoDup (f_params F) -> ~ In (lit "__va_args__") (f_params F) -> Forall parameter (f_params F) ->
  let e0 := [(f, NBound)] :: e in
  declares ec parse e0 s0 bd (f_params F) dflt -> evals ec parse (NLambda bd (utree (f_body F))) e0 s0 c e0 s0 ->
  in_force ec parse free parameter ((f, F) :: fs) ([(f, c)] :: e).
Proof. exact (UseFacts4.definition_counts ec parse free parameter f F fs e s0 bd dflt c). Qed.
Print Assumptions C60_definition_counts.
(** the same three functions in a source *)
Example C60_run : run_of "($set k 10)($set twice \x.($ add x x))($set area \w.\h.($ ($ mul ($ twice w) h) ? w | k))($set label \n.[v($ n) = ($ area n 3);])($ label 5) ($ label 0)" =
  Ok (PP true (lit "v5 = 30; v0 = 10;") None None false 0).
Proof. exact chain_run. Qed.

(** A tower of functions, of any height and with any different names: each calls the one before and
    adds one. The call of the last of them, in a whole run, adds one per function. (That sources with
    functions of other kinds become what they mean is part of C52: [EChain] in RunSpec.v.) *)
Theorem C60_towers_of_any_height nm n k : (forall i, identifier (nm i)) -> (forall i j, nm i = nm j -> i = j) ->
  (forall i, ~ In (nm i) [lit "x"; lit "add"; lit "__OUTPUT_FILE__"]) ->
  exists n0, forall fuel, (n0 <= fuel)%nat ->
    pp world0 run_config 1 fuel (levels nm 0 (S n) ++ lit "($ " ++ nm n ++ lit " " ++ Z_text k ++ lit ")") (Some (lit "a.yu-c")) (Some (lit "a.c")) process0 =
      Ok (PP true (Z_text (k + Z.of_nat n + 1)) None None false 0).
Proof. exact (tower_runs nm n k). Qed.
Print Assumptions C60_towers_of_any_height.
Example C60_tower_case : (forall i, identifier (fs i)) /\ (forall i j, fs i = fs j -> i = j) /\ (forall i, ~ In (fs i) [lit "x"; lit "add"; lit "__OUTPUT_FILE__"]) /\
  levels fs 0 3 = lit "($set f \x.($ add x 1))($set ff \x.($ add ($ f x) 1))($set fff \x.($ add ($ ff x) 1))".
Proof. exact fs_case. Qed.

(** The name of a parameter of the caller matters: 7 - 2 becomes 0 where the caller calls its own
    parameter y, as the called function does. *)
Theorem C60_capture_refuted : run_of "($set minus \x.\y.($ sub x y))($set f \y.($ minus y 2))($set h \z.($ minus z 2))($ minus 7 2) ($ f 7) ($ h 7)" =
  Ok (PP true (lit "5 0 5") None None false 0).
Proof. exact capture_run. Qed.
Print Assumptions C60_capture_refuted.
(** A conditional in a branch of a conditional keeps the parameter when called from the text, and
    shows its name when called from another function. *)
Theorem C60_nested_conditional_refuted : run_of "($set g \y.($ ($ y ? y | 7) ? y | 9))($set f \x.($ g x))($ g 5) ($ f 5)" =
  Ok (PP true (lit "5 y") None None false 0).
Proof. exact nested_run. Qed.
Print Assumptions C60_nested_conditional_refuted.
