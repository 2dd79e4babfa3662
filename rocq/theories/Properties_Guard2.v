(** * Variables with a first value, and C declarations for C++, in a header: C65 *)
From Coq Require Import List NArith ZArith Bool String.
From Verif Require FormatSpec TextSpec Builtin2.
From Verif Require Import PyStr LexSpec Ast Final Shell ShellSpec EnvSpec EvalSpec Eval Parse ParseSpec PpSpec Pp PpCases ExprSpec CoreSpec RunSpec Eg SheetSpec StdSpec StdRun StdCases ConfSpec GuardSpec GuardCases GuardUse GuardMore GuardRun GuardFinal GuardMore2.
Import ListNotations.
Open Scope list_scope.
Open Scope N_scope.

(** ($var-init x y) declares x with the helper of the header, with the first value y *)
Theorem C65_var_init ec later before r a x y val val' u u2 N ind fb rest t fb' : s_txt a = lit "var-init" -> ~ In (lit "var-init") (names later) ->
  c_python (e_parse ec) = false -> c_skip (e_parse ec) = SkipNone -> gives (values_in [] (later ++ light_defs ++ before)) (lit "h-name") (NRaw N) -> solid N ->
  value ec (InText (later ++ light_defs ++ before)) x val -> FormatSpec.inserts val u -> value ec (InText (later ++ light_defs ++ before)) y val' -> FormatSpec.inserts val' u2 ->
  Forall (fun c => declaration_char c /\ c <> 10 /\ c <> 64) u -> Forall (fun c => declaration_char c /\ c <> 10 /\ c <> 64) u2 ->
  page ec (later ++ light_defs ++ before) IndFalse fb rest t fb' ->
  page ec (later ++ light_defs ++ before) ind fb (NApply (NVar r a) [x; y] [] None 0 :: rest) (N ++ lit "_VAR_INIT( " ++ u ++ lit ", " ++ u2 ++ lit " );" ++ t) fb'.
Proof. exact (use_var_init ec later before r a x y val val' u u2 N ind fb rest t fb'). Qed.
Print Assumptions C65_var_init.
(** ($extern-c-begin) and ($extern-c-end): what stands between them is C for a C++ compiler *)
Theorem C65_extern_c_begin ec later before r a ind fb rest t fb' : s_txt a = lit "extern-c-begin" -> ~ In (lit "extern-c-begin") (names later) ->
  c_python (e_parse ec) = false -> c_skip (e_parse ec) = SkipNone -> ind_text ind = [] ->
  page ec (later ++ light_defs ++ before) IndFalse fb rest t fb' ->
  page ec (later ++ light_defs ++ before) ind fb (NApply (NVar r a) [] [] None 0 :: rest) (lit "
#ifdef __cplusplus
extern ""C"" {
#endif
" ++ t) fb'.
Proof. exact (use_c_begin ec later before r a ind fb rest t fb'). Qed.
Print Assumptions C65_extern_c_begin.
Theorem C65_extern_c_end ec later before r a ind fb rest t fb' : s_txt a = lit "extern-c-end" -> ~ In (lit "extern-c-end") (names later) ->
  c_python (e_parse ec) = false -> c_skip (e_parse ec) = SkipNone -> ind_text ind = [] ->
  page ec (later ++ light_defs ++ before) IndFalse fb rest t fb' ->
  page ec (later ++ light_defs ++ before) ind fb (NApply (NVar r a) [] [] None 0 :: rest) (lit "
#ifdef __cplusplus
}
#endif
" ++ t) fb'.
Proof. exact (use_c_end ec later before r a ind fb rest t fb'). Qed.
Print Assumptions C65_extern_c_end.
Example C65_init_case :
  (solid (lit "FOO") /\ Forall (fun c => declaration_char c /\ c <> 10 /\ c <> 64) (lit "short fred[ 3 ]") /\ Forall (fun c => declaration_char c /\ c <> 10 /\ c <> 64) (lit "{ 7, 11, 13 }")) /\
  pp (with_library lib_top lib_input light_world) lib_config 3 80
     (lit "($import h-light)($h-begin foo)
($var-init,,short fred[ 3 ],,{ 7, 11, 13 })
($extern-c-begin)extern bool waldo( void );($extern-c-end)
($h-end)") lib_input lib_output (Proc [] []) =
    Ok (PP true (header (lit "FOO") (lit "FOO_VAR_INIT( short fred[ 3 ], { 7, 11, 13 } );
" ++ extern_c_begin ++ lit "extern bool waldo( void );" ++ extern_c_end)) None None false 0).
Proof. exact init_case. Qed.
(** ($h-begin-named): the first half of the guard, named after the file; [n] is what __MODULE_NAME__ gives *)
Theorem C65_h_begin_named ec later before r a n N fb rest t fb' : s_txt a = lit "h-begin-named" -> ~ In (lit "h-begin-named") (names later) -> ~ In (lit "h-begin") (names later) ->
  c_python (e_parse ec) = false -> c_skip (e_parse ec) = SkipNone -> TextSpec.offers ec (lit "upper") -> ~ In (lit "upper") (names (later ++ light_defs ++ before)) ->
  builtin_gives ec (lit "__MODULE_NAME__") [] (NRaw n) -> ~ In (lit "__MODULE_NAME__") (names (later ++ light_defs ++ before)) ->
  identifier n -> ~ In 45 n -> ~ In n (names (later ++ light_defs ++ before)) -> ~ In n special_forms -> (forall imported, e_builtin ec imported n = None) ->
  Forall2 TextSpec.to_capital n N ->
  page ec ((lit "h-name", EValue (NRaw N)) :: (lit "h-name", EValue (NRaw n)) :: later ++ light_defs ++ before) (IndStr []) fb rest t fb' ->
  page ec (later ++ light_defs ++ before) (IndStr []) fb (NApply (NVar r a) [] [] None 0 :: rest)
    ([10] ++ (if e_trim ec then [] else [10]) ++ [10] ++ (if e_trim ec then [] else [10]) ++ filled N header_begin ++ 10 :: t) fb'.
Proof. exact (use_named ec later before r a n N fb rest t fb'). Qed.
Print Assumptions C65_h_begin_named.
Example C65_named_case :
  (forall w top trim reduce dirs passage input output uniq, builtin_gives (run_ectx (with_library top input w) (library_config trim reduce dirs passage) input output (Proc [] uniq)) (lit "__MODULE_NAME__") [] (NRaw (Builtin2.module_name input))) /\
  Builtin2.module_name lib_input = lit "A" /\
  pp (with_library lib_top lib_input light_world) lib_config 3 80
     (lit "($import h-light)($h-begin-named)int x;
($h-end)") lib_input lib_output (Proc [] []) =
    Ok (PP true (10 :: 10 :: filled (lit "A") header_begin ++ 10 :: lit "int x;" ++ 10 :: filled (lit "A") header_end) None None false 0).
Proof. exact named_case. Qed.
(** ($implement-named): the mark that this file implements the header of the same name *)
Theorem C65_implement_named ec later before r a n N ind fb rest t fb' : s_txt a = lit "implement-named" -> ~ In (lit "implement-named") (names later) -> ~ In (lit "implement") (names later) ->
  c_python (e_parse ec) = false -> c_skip (e_parse ec) = SkipNone -> TextSpec.offers ec (lit "upper") -> ~ In (lit "upper") (names (later ++ light_defs ++ before)) ->
  builtin_gives ec (lit "__MODULE_NAME__") [] (NRaw n) -> ~ In (lit "__MODULE_NAME__") (names (later ++ light_defs ++ before)) ->
  identifier n -> ~ In 45 n -> ~ In n (names (later ++ light_defs ++ before)) -> ~ In n special_forms -> (forall imported, e_builtin ec imported n = None) ->
  Forall2 TextSpec.to_capital n N -> ind_text ind = [] ->
  page ec (later ++ light_defs ++ before) IndFalse fb rest t fb' ->
  page ec (later ++ light_defs ++ before) ind fb (NApply (NVar r a) [] [] None 0 :: rest) (10 :: lit "#define " ++ N ++ lit "_IMPLEMENT" ++ 10 :: t) fb'.
Proof. exact (use_implement_named ec later before r a n N ind fb rest t fb'). Qed.
Print Assumptions C65_implement_named.
Example C65_implement_named_case :
  pp (with_library lib_top lib_input light_world) lib_config 3 80
     (lit "($import h-light)($implement-named)
int x;") lib_input lib_output (Proc [] []) =
    Ok (PP true (lit "
#define A_IMPLEMENT

int x;") None None false 0).
Proof. exact implement_named_case. Qed.
