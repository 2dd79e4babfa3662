(** * The header library: C65 *)
From Coq Require Import List NArith ZArith Bool String.
From Verif Require FormatSpec TextSpec.
From Verif Require Import PyStr LexSpec Ast Final Shell ShellSpec EnvSpec EvalSpec Eval Parse ParseSpec PpSpec Pp PpCases ExprSpec CoreSpec RunSpec Eg SheetSpec StdSpec StdRun StdCases ConfSpec GuardSpec GuardCases GuardUse GuardMore GuardRun GuardFinal.
Import ListNotations.
Open Scope list_scope.
Open Scope N_scope.

(** A source that imports h-light and puts declarations between ($h-begin name) and ($h-end) gives the
    declarations, unchanged, between the two halves of the guard, with the name in capital letters.
    Empty lines are reduced or not; if they are, the declarations are settled. *)
Theorem C65_header_run w top reduce dirs passage d n N b input output uniq key all p :
  let w' := with_library top input w in let cfg := library_config true reduce dirs passage in
  language_of output false -> source_named input key -> searched dirs (w_lib w) input all ->
  library_file (w_read w) all (lit "h-light.yu") p (lit h_light_yu) -> key <> lit "<null>" -> key <> lit "h-light.yu" ->
  identifier n -> ~ In 45 n -> ~ In n (names light_defs) -> ~ In n special_forms -> (forall imported, e_builtin (run_ectx w' cfg input output (Proc [] uniq)) imported n = None) ->
  Forall2 TextSpec.to_capital n N -> Forall declaration_char b -> (reduce = true -> settled b) ->
  exists n0, forall k, (n0 <= k)%nat -> pp w' cfg (S (S d)) k (header_source n b) input output (Proc [] uniq) = Ok (PP true (header N b) None None false 0).
Proof. exact (header_run w top reduce dirs passage d n N b input output uniq key all p). Qed.
Print Assumptions C65_header_run.
Example C65_header_case :
  (language_of lib_output false /\ source_named lib_input (lit "a.yu-c") /\ searched [] (w_lib light_world) lib_input [[]; lit "lib"] /\
   library_file (w_read light_world) [[]; lit "lib"] (lit "h-light.yu") (lit "lib/h-light.yu") (lit h_light_yu)) /\
  (identifier (lit "foo") /\ ~ In 45 (lit "foo") /\ ~ In (lit "foo") (names light_defs) /\ ~ In (lit "foo") special_forms /\
   (forall imported, e_builtin (run_ectx (with_library lib_top lib_input light_world) lib_config lib_input lib_output (Proc [] [])) imported (lit "foo") = None)) /\
  (Forall2 TextSpec.to_capital (lit "foo") (lit "FOO") /\ Forall declaration_char light_body) /\
  pp (with_library lib_top lib_input light_world) lib_config 3 80 (header_source (lit "foo") light_body) lib_input lib_output (Proc [] []) = Ok (PP true (header (lit "FOO") light_body) None None false 0).
Proof. exact light_case. Qed.
Example C65_settled_case : settled light_body /\
  pp (with_library lib_top lib_input light_world) (library_config true true [] 0) 3 80 (header_source (lit "foo") light_body) lib_input lib_output (Proc [] []) = Ok (PP true (header (lit "FOO") light_body) None None false 0).
Proof. exact settled_case. Qed.

(** ($h-begin x) anywhere at the beginning of a line, x naming [n]: the first half of the guard; from
    there on h-name is the name in capital letters. *)
Theorem C65_h_begin ec later before r a x val n N fb rest t fb' : s_txt a = lit "h-begin" -> ~ In (lit "h-begin") (names later) ->
  c_python (e_parse ec) = false -> c_skip (e_parse ec) = SkipNone -> TextSpec.offers ec (lit "upper") -> ~ In (lit "upper") (names (later ++ light_defs ++ before)) ->
  identifier n -> ~ In 45 n -> ~ In n (names (later ++ light_defs ++ before)) -> ~ In n special_forms -> (forall imported, e_builtin ec imported n = None) ->
  value ec (InText (later ++ light_defs ++ before)) x val -> FormatSpec.inserts val n -> Forall2 TextSpec.to_capital n N ->
  page ec ((lit "h-name", EValue (NRaw N)) :: later ++ light_defs ++ before) (IndStr []) fb rest t fb' ->
  page ec (later ++ light_defs ++ before) (IndStr []) fb (NApply (NVar r a) [x] [] None 0 :: rest) ([10] ++ (if e_trim ec then [] else [10]) ++ filled N header_begin ++ t) fb'.
Proof. exact (use_begin ec later before r a x val n N fb rest t fb'). Qed.
Print Assumptions C65_h_begin.
(** ($h-end): the second half, with what h-name is there *)
Theorem C65_h_end ec later before r a N ind fb rest t fb' : s_txt a = lit "h-end" -> ~ In (lit "h-end") (names later) ->
  c_python (e_parse ec) = false -> c_skip (e_parse ec) = SkipNone -> gives (values_in [] (later ++ light_defs ++ before)) (lit "h-name") (NRaw N) -> solid N -> ind_text ind = [] ->
  page ec (later ++ light_defs ++ before) IndFalse fb rest t fb' -> page ec (later ++ light_defs ++ before) ind fb (NApply (NVar r a) [] [] None 0 :: rest) (filled N header_end ++ t) fb'.
Proof. exact (use_end ec later before r a N ind fb rest t fb'). Qed.
Print Assumptions C65_h_end.
(** ($var x) declares with the helper of the header: x is one line of a declaration *)
Theorem C65_var ec later before r a x val u N ind fb rest t fb' : s_txt a = lit "var" -> ~ In (lit "var") (names later) ->
  c_python (e_parse ec) = false -> c_skip (e_parse ec) = SkipNone -> gives (values_in [] (later ++ light_defs ++ before)) (lit "h-name") (NRaw N) -> solid N ->
  value ec (InText (later ++ light_defs ++ before)) x val -> FormatSpec.inserts val u -> Forall (fun c => declaration_char c /\ c <> 10 /\ c <> 64) u ->
  page ec (later ++ light_defs ++ before) IndFalse fb rest t fb' ->
  page ec (later ++ light_defs ++ before) ind fb (NApply (NVar r a) [x] [] None 0 :: rest) (N ++ lit "_VAR( " ++ u ++ lit " );" ++ t) fb'.
Proof. exact (use_var ec later before r a x val u N ind fb rest t fb'). Qed.
Print Assumptions C65_var.
(** ($inline) is the helper for functions *)
Theorem C65_inline ec later before r a N ind fb rest t fb' : s_txt a = lit "inline" -> ~ In (lit "inline") (names later) ->
  c_python (e_parse ec) = false -> c_skip (e_parse ec) = SkipNone -> gives (values_in [] (later ++ light_defs ++ before)) (lit "h-name") (NRaw N) -> solid N ->
  page ec (later ++ light_defs ++ before) IndFalse fb rest t fb' ->
  page ec (later ++ light_defs ++ before) ind fb (NApply (NVar r a) [] [] None 0 :: rest) (N ++ lit "_INL" ++ t) fb'.
Proof. exact (use_inline ec later before r a N ind fb rest t fb'). Qed.
Print Assumptions C65_inline.
(** ($implement x), x naming [n], defines the symbol the header [n] asks for *)
Theorem C65_implement ec later before r a x val n N ind fb rest t fb' : s_txt a = lit "implement" -> ~ In (lit "implement") (names later) ->
  c_python (e_parse ec) = false -> c_skip (e_parse ec) = SkipNone -> TextSpec.offers ec (lit "upper") -> ~ In (lit "upper") (names (later ++ light_defs ++ before)) ->
  identifier n -> ~ In 45 n -> ~ In n (names (later ++ light_defs ++ before)) -> ~ In n special_forms -> (forall imported, e_builtin ec imported n = None) ->
  value ec (InText (later ++ light_defs ++ before)) x val -> FormatSpec.inserts val n -> Forall2 TextSpec.to_capital n N -> ind_text ind = [] ->
  page ec (later ++ light_defs ++ before) IndFalse fb rest t fb' ->
  page ec (later ++ light_defs ++ before) ind fb (NApply (NVar r a) [x] [] None 0 :: rest) (10 :: lit "#define " ++ N ++ lit "_IMPLEMENT" ++ 10 :: t) fb'.
Proof. exact (use_implement ec later before r a x val n N ind fb rest t fb'). Qed.
Print Assumptions C65_implement.
Example C65_implement_case :
  pp (with_library lib_top lib_input light_world) lib_config 3 80 (lit "($import h-light)($implement foo)#include ""foo.h""") lib_input lib_output (Proc [] []) =
    Ok (PP true (10 :: lit "#define " ++ lit "FOO" ++ lit "_IMPLEMENT" ++ 10 :: lit "#include ""foo.h""") None None false 0).
Proof. exact implement_case. Qed.
Example C65_use_case :
  (solid (lit "FOO") /\ Forall (fun c => declaration_char c /\ c <> 10 /\ c <> 64) (lit "bool plugh")) /\
  pp (with_library lib_top lib_input light_world) lib_config 3 80
     (lit "($import h-light)($h-begin foo)
($var,,bool plugh)
($inline) int qux( int a );
($h-end)") lib_input lib_output (Proc [] []) =
    Ok (PP true (header (lit "FOO") (lit "FOO_VAR( bool plugh );
FOO_INL int qux( int a );")) None None false 0).
Proof. exact use_case. Qed.
