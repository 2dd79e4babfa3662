(** * String literals, names, comparisons and reduce: C53, C54, C55 *)
From Coq Require Import List NArith ZArith Bool String.
From Verif Require Import PyStr Ast Eval Builtin Builtin2 Shell Pp LexSpec EnvSpec EvalSpec EvalCases PpCases BuiltinSpec TextSpec TextCases ShellSpec QuoteSpec QuoteFacts NameSpec NameFacts NameCases MoreSpec MoreCases ConfSpec ReadStd.
Import ListNotations.
Open Scope list_scope.

(** ** C53: string literals denote their value *)
Theorem C53_unquoting_a_literal ec x q w t : offers ec (lit "unq") -> quote q -> string_value x (q :: w ++ [q]) -> denotes (inside q) w t ->
  call_yields ec (lit "unq") [x] (NRaw t).
Proof. exact (call_unq_literal ec x q w t). Qed.
Print Assumptions C53_unquoting_a_literal.
Theorem C53_unquoting_other_text ec x w t : offers ec (lit "unq") -> (forall q r, w = q :: r -> ~ quote q) -> string_value x w -> denotes ascii w t ->
  call_yields ec (lit "unq") [x] (NRaw t).
Proof. exact (call_unq_unquoted ec x w t). Qed.
Print Assumptions C53_unquoting_other_text.
(** The length of a literal of the source is that of the text it denotes. *)
Theorem C53_length_of_a_literal ec s q w t : offers ec (lit "strlen") -> quote q -> s_txt s = q :: w ++ [q] -> denotes (inside q) w t ->
  call_yields ec (lit "strlen") [NStr s] (NInt (Z.of_nat (List.length t))).
Proof. exact (call_strlen_literal ec s q w t). Qed.
Print Assumptions C53_length_of_a_literal.
(** q and qs yield a literal of printable ASCII characters that denotes the text,
    and unq gives the text back, unless the text contains the quote itself. *)
Theorem C53_quoting_partial ec x t : offers ec (lit "q") -> offers ec (lit "qs") -> offers ec (lit "unq") -> string_value x t -> Forall (fun c => (c < 1114112)%N) t ->
  exists w, Forall printable w /\ call_yields ec (lit "q") [x] (NRaw (34%N :: w ++ [34%N])) /\ call_yields ec (lit "qs") [x] (NRaw (39%N :: w ++ [39%N])) /\
    (~ In 34%N t -> denotes (inside 34) w t /\ call_yields ec (lit "unq") [NRaw (34%N :: w ++ [34%N])] (NRaw t)) /\
    (~ In 39%N t -> denotes (inside 39) w t /\ call_yields ec (lit "unq") [NRaw (39%N :: w ++ [39%N])] (NRaw t)).
Proof. exact (call_quoted ec x t). Qed.
Print Assumptions C53_quoting_partial.
(** A quotation mark in the text is not escaped: what q yields is no literal. *)
Theorem C53_quotation_marks_refuted : exists t, ~ (exists w v, call_yields ec1 (lit "q") [NRaw t] (NRaw (34%N :: w ++ [34%N])) /\ denotes (inside 34) w v).
Proof. exact quotation_marks. Qed.
Print Assumptions C53_quotation_marks_refuted.
Example C53_case : denotes (inside 34) (lit "a\n\x41\101\d") ([97; 10; 65; 65; 92; 100])%N /\
  call1 "unq" [txt """a\n\x41\101\d"""] (NRaw [97; 10; 65; 65; 92; 100]%N) /\ call1 "strlen" [txt """a\n\x41\101\d"""] (NInt 6) /\
  call1 "q" [NRaw (10%N :: lit "c:\x")] (NRaw (lit """\nc:\\x""")) /\ call1 "qs" [NRaw [233%N; 8364%N]] (NRaw (lit "'\xe9\u20ac'")).
Proof. exact literal_case. Qed.
Example C53_offered_case : Forall (fun n => offers ec1 (lit n)) ["unq"; "strlen"; "q"; "qs"; "eq"; "ne"; "not"; "islist"; "list"]%string.
Proof. exact offers2. Qed.

(** ** C54: what a name means *)
(** The innermost scope that knows the name decides. *)
Theorem C54_innermost_definition ec parse reg a e inner f outer v s : innermost e inner f outer (s_txt a) -> gives f (s_txt a) v -> v <> NBound ->
  evals ec parse (NVar reg a) e s v e s.
Proof. exact (name_defined ec parse reg a e inner f outer v s). Qed.
Print Assumptions C54_innermost_definition.
(** Next come the functions of imported Python scripts. *)
Theorem C54_script_function w cfg input output pr parse a args e s e2 s2 f vs v s3 file pos : unknown e (s_txt a) ->
  w_scripts w (y_script s) (s_txt a) = Some (BFun f) -> w_scripts w (y_script s2) (s_txt a) = Some (BFun f) ->
  evals (run_ectx w cfg input output pr) parse (NList args) e s (NList vs) e2 s2 -> is_term (NList vs) = true -> f vs s2 = Ok (v, s3) ->
  evals (run_ectx w cfg input output pr) parse (NApply (NVar (RList []) a) args [] file pos) e s (builtin_result v) e2 s3.
Proof. exact (run_script_function w cfg input output pr parse a args e s e2 s2 f vs v s3 file pos). Qed.
Print Assumptions C54_script_function.
(** Next the constants of the configuration; the last option for the name counts. *)
Theorem C54_configured_constant w cfg input output pr parse a v e s file pos : unknown e (s_txt a) -> w_scripts w (y_script s) (s_txt a) = None ->
  configured (k_define cfg) (s_txt a) v ->
  evals (run_ectx w cfg input output pr) parse (NApply (NVar (RList []) a) [] [] file pos) e s v e s.
Proof. exact (run_constant w cfg input output pr parse a v e s file pos). Qed.
Print Assumptions C54_configured_constant.
(** Next the built-in functions: a run offers each of them under its name, unless
    a script or a constant has taken the name. *)
Theorem C54_builtin_function w cfg input output pr cx inp other name f : (forall im, w_scripts w im name = None) -> not_configured (k_define cfg) name ->
  dict_get name (pr_defines pr) = None -> name <> lit "__FILE__" -> w_rest w = more_builtins cx inp other -> dict_get name (core ++ more cx inp) = Some f ->
  offers (run_ectx w cfg input output pr) name.
Proof. exact (run_offers w cfg input output pr cx inp other name f). Qed.
Print Assumptions C54_builtin_function.
Theorem C54_input_file w cfg input output pr parse a e s file pos key : source_named input key -> s_txt a = lit "__FILE__" -> unknown e (s_txt a) -> (forall im, w_scripts w im (s_txt a) = None) ->
  not_configured (k_define cfg) (s_txt a) -> dict_get (s_txt a) (pr_defines pr) = None ->
  evals (run_ectx w cfg input output pr) parse (NApply (NVar (RList []) a) [] [] file pos) e s (NRaw (34%N :: key ++ [34%N])) e s.
Proof. exact (named_file w cfg input output pr parse a e s file pos key). Qed.
Print Assumptions C54_input_file.
Theorem C54_output_file w cfg input output pr parse a e s file pos : s_txt a = lit "__OUTPUT_FILE__" -> unknown e (s_txt a) -> (forall im, w_scripts w im (s_txt a) = None) ->
  not_configured (k_define cfg) (s_txt a) -> dict_get (s_txt a) (pr_defines pr) = None ->
  evals (run_ectx w cfg input output pr) parse (NApply (NVar (RList []) a) [] [] file pos) e s (NRaw (34%N :: y_output s ++ [34%N])) e s.
Proof. exact (run_output_file w cfg input output pr parse a e s file pos). Qed.
Print Assumptions C54_output_file.
(** The name of the module: that of the input file without directory and extension, in
    capitals and with underscores for hyphens. *)
Theorem C54_module_name w cfg input output pr parse cx d n x other a e s file pos : s_txt a = lit "__MODULE_NAME__" -> unknown e (s_txt a) -> (forall im, w_scripts w im (s_txt a) = None) ->
  not_configured (k_define cfg) (s_txt a) -> dict_get (s_txt a) (pr_defines pr) = None ->
  (d = [] \/ exists b, d = b ++ [47%N]) -> simple n -> Exists (fun c => c <> 46%N) n -> ~ In 46%N x -> ~ In 47%N x ->
  w_rest w = more_builtins cx (Some (d ++ n ++ 46%N :: x)) other ->
  exists u, Forall2 underscored n u /\ evals (run_ectx w cfg input output pr) parse (NApply (NVar (RList []) a) [] [] file pos) e s (NRaw u) e s.
Proof. exact (run_module_name w cfg input output pr parse cx d n x other a e s file pos). Qed.
Print Assumptions C54_module_name.
(** A name nobody defines stands for itself. *)
Theorem C54_undefined_name w cfg input output pr parse a e s : unknown e (s_txt a) -> w_scripts w (y_script s) (s_txt a) = None ->
  not_configured (k_define cfg) (s_txt a) -> dict_get (s_txt a) (pr_defines pr) = None ->
  ~ In (s_txt a) (lit "__FILE__" :: map fst core ++ [lit "__PASSAGE__"; lit "isatom"; lit "lazy"; lit "skip"; lit "reduce"; lit "repr"]) ->
  w_rest w (s_txt a) = None -> ~ In 45%N (s_txt a) ->
  evals (run_ectx w cfg input output pr) parse (NVar (RList []) a) e s (NAtom a) e s.
Proof. exact (run_itself w cfg input output pr parse a e s). Qed.
Print Assumptions C54_undefined_name.
(** In an explicit scope it is an error. *)
Theorem C54_undefined_in_scope ec parse l r a e s : unknown e (s_txt a) ->
  finishes ec parse (NVar (RList (l :: r)) a) e s (Err (Exn TypeError "yueval: undefined variable")).
Proof. exact (name_outside_of ec parse l r a e s). Qed.
Print Assumptions C54_undefined_in_scope.
Example C54_module_case : module_name (Some (lit "src/my-lib.yu-c")) = lit "MY_LIB".
Proof. exact module_case. Qed.
Example C54_options_case : let opts := [lit "MODE:slow"; lit " MODE : fast "; lit "DEBUG"; lit "2X:1"] in
  configured opts (lit "MODE") (NRaw (lit "fast")) /\ configured opts (lit "DEBUG") (NBool true) /\ not_configured opts (lit "X").
Proof. exact options_case. Qed.
Example C54_case :
  pp world0 (Config 0 true false false [lit "MODE:slow"; lit " MODE : fast "; lit "DEBUG"; lit "2X:1"] [] 0) 1 60
     (lit "($MODE) ($set MODE quick)($MODE) ($DEBUG) ($lower NaMe)") (Some (lit "a.yu-c")) (Some (lit "a.c")) process0 =
    Ok (PP true (lit "fast quick True name") None None false 0).
Proof. exact names_case. Qed.

(** ** C55: comparisons, truth tests and reduce *)
Theorem C55_equality ec x y : offers ec (lit "eq") -> offers ec (lit "ne") -> is_term x = true -> is_term y = true ->
  exists b c, call_yields ec (lit "eq") [x; y] (NInt b) /\ call_yields ec (lit "ne") [x; y] (NInt c) /\ (b = 1 /\ c = 0 /\ equal x y \/ b = 0 /\ c = 1 /\ ~ equal x y)%Z.
Proof. exact (call_equal ec x y). Qed.
Print Assumptions C55_equality.
Theorem C55_not ec x : offers ec (lit "not") -> is_term x = true -> (exists z, int_value x z) \/ (exists t, str_of x = Some t) \/ (exists l, list_of x = Some l) ->
  exists b, call_yields ec (lit "not") [x] (NInt b) /\ (b = 1 /\ false_value x \/ b = 0 /\ ~ false_value x)%Z.
Proof. exact (call_not ec x). Qed.
Print Assumptions C55_not.
Theorem C55_islist ec x : offers ec (lit "islist") -> is_term x = true ->
  exists b, call_yields ec (lit "islist") [x] (NInt b) /\ (b = 1 /\ (exists l, list_of x = Some l) \/ b = 0 /\ list_of x = None)%Z.
Proof. exact (call_islist ec x). Qed.
Print Assumptions C55_islist.
Theorem C55_list ec l : offers ec (lit "list") -> forallb is_term l = true -> call_yields ec (lit "list") l (NList l).
Proof. exact (call_list ec l). Qed.
Print Assumptions C55_list.
Theorem C55_isatom ec parse a x v e s e2 s2 file pos : s_txt a = lit "isatom" -> unknown e (s_txt a) -> e_builtin ec (y_script s) (s_txt a) = None ->
  evals ec parse (NList [x]) e s (NList [v]) e2 s2 ->
  exists b, evals ec parse (NApply (NVar (RList []) a) [x] [] file pos) e s (NInt b) e2 s2 /\ (b = 1 \/ b = 0)%Z /\
    (b = 1%Z <-> (exists n, v = NAtom n) \/ (exists r n, v = NVar r n)).
Proof. exact (isatom_spec ec parse a x v e s e2 s2 file pos). Qed.
Print Assumptions C55_isatom.
(** reduce combines the elements with a built-in function of two arguments from the
    left, starting with the third argument or the first element. *)
Theorem C55_reduce ec parse a args e s e2 s2 b x l v file pos g : s_txt a = lit "reduce" -> unknown e (s_txt a) -> e_builtin ec (y_script s) (s_txt a) = None ->
  (forall imported, e_builtin ec imported (s_txt b) = Some (BFun g)) -> forallb is_term (x :: l) = true ->
  folds (fun x y z => exists g, (forall imported, e_builtin ec imported (s_txt b) = Some (BFun g)) /\ forall st, g [x; y] st = Ok (z, st)) x l v ->
  (evals ec parse (NList args) e s (NList [NBuiltin b; NList (x :: l)]) e2 s2 \/ evals ec parse (NList args) e s (NList [NBuiltin b; NList l; x]) e2 s2) ->
  evals ec parse (NApply (NVar (RList []) a) args [] file pos) e s v e2 s2.
Proof. exact (reduce_spec ec parse a args e s e2 s2 b x l v file pos g). Qed.
Print Assumptions C55_reduce.
Example C55_case :
  call1 "eq" [txt "a"; NRaw (lit "a")] (NInt 1) /\ call1 "eq" [NList [NInt 1]; NList [NInt 2]] (NInt 0) /\ call1 "ne" [txt "1"; NInt 1] (NInt 1) /\
  call1 "not" [NList []] (NInt 1) /\ call1 "not" [txt "x"] (NInt 0) /\ call1 "islist" [NList []] (NInt 1) /\ call1 "islist" [txt "x"] (NInt 0) /\
  call1 "list" [NInt 1; txt "x"] (NList [NInt 1; txt "x"]).
Proof. exact compare_case. Qed.
Example C55_reduce_case : exists s, evals ec1 noparse (call (var "reduce") [var "sub"; NList [NInt 10; NInt 2; NInt 3]]) [] st0 (NInt 5) [] s.
Proof. exact reduce_case. Qed.
