(** * What the helpers of a header stand for, for a C preprocessor: C65 *)
From Coq Require Import List NArith Bool String.
From Verif Require TextSpec.
From Verif Require Import PyStr Ast LexSpec GuardSpec CppSpec CppCases CppSpec2 CppMacros.
Import ListNotations.
Open Scope list_scope.
Open Scope N_scope.

(** Where the declarations of a header are, name_VAR( x ) stands for x and name_VAR_INIT( x, y ) for x = y
    if name_IMPLEMENT is defined; both stand for extern x if it is not *)
Theorem C65_helpers_stand_for holds n N : identifier n -> ~ In 45 n -> Forall2 TextSpec.to_capital n N ->
  forall k M, forallb (fun c => c) k = true ->
  Forall (fun s => existsb (fun p => teqb (fst p) (N ++ s)) M = false) [lit "_H"; lit "_VAR"; lit "_VAR_INIT"; lit "_INL"] ->
  macros holds k M (lines_of (10 :: filled N header_begin ++ [10])) =
    (if existsb (fun p => teqb (fst p) (N ++ lit "_IMPLEMENT")) M then
       [ (N ++ lit "_INL", []);
         (N ++ lit "_VAR_INIT", lit "( decl, ... ) 	decl = __VA_ARGS__");
         (N ++ lit "_VAR", lit "( decl ) 	decl");
         (N ++ lit "_H", []) ]
     else
       [ (N ++ lit "_INL", if holds (lit " __GNUC__ && !__GNUC_STDC_INLINE__") then lit " 	extern inline" else lit " 	inline");
         (N ++ lit "_VAR_INIT", lit "( decl, ... ) 	extern decl");
         (N ++ lit "_VAR", lit "( decl ) 	extern decl");
         (N ++ lit "_H", []) ]) ++ M.
Proof. exact (helpers_are holds n N). Qed.
Print Assumptions C65_helpers_stand_for.
(** What ($implement name) writes, in front of the header, makes the header define its variables *)
Theorem C65_implement_defines holds n N : identifier n -> ~ In 45 n -> Forall2 TextSpec.to_capital n N ->
  forall k M, forallb (fun c => c) k = true ->
  Forall (fun s => existsb (fun p => teqb (fst p) (N ++ s)) M = false) [lit "_H"; lit "_VAR"; lit "_VAR_INIT"; lit "_INL"] ->
  macros holds k M (lines_of ((10 :: lit "#define " ++ N ++ lit "_IMPLEMENT" ++ [10]) ++ 10 :: filled N header_begin ++ [10])) =
    [ (N ++ lit "_INL", []);
      (N ++ lit "_VAR_INIT", lit "( decl, ... ) 	decl = __VA_ARGS__");
      (N ++ lit "_VAR", lit "( decl ) 	decl");
      (N ++ lit "_H", []) ] ++ (N ++ lit "_IMPLEMENT", []) :: filter (fun p => negb (teqb (fst p) (N ++ lit "_IMPLEMENT"))) M.
Proof. exact (implement_makes holds n N). Qed.
Print Assumptions C65_implement_defines.
(** After the header only name_H is defined besides what was defined before, and all else stands for what it stood for *)
Theorem C65_header_leaves holds n N : identifier n -> ~ In 45 n -> Forall2 TextSpec.to_capital n N ->
  forall k M b, forallb (fun c => c) k = true ->
  Forall (fun s => existsb (fun p => teqb (fst p) (N ++ s)) M = false) [lit "_H"; lit "_VAR"; lit "_VAR_INIT"; lit "_INL"] ->
  (forall x, b <> x ++ [92]) -> Forall (fun l => directive l = None) (lines_of (b ++ [10])) ->
  macros holds k M (lines_of (header N b)) = (N ++ lit "_H", []) :: M.
Proof. exact (after_header holds n N). Qed.
Print Assumptions C65_header_leaves.
Example C65_helpers_case :
  macros (fun _ => true) [] [(lit "FOO_IMPLEMENT", [])] (lines_of (10 :: filled (lit "FOO") header_begin ++ [10])) =
    [ (lit "FOO_INL", []); (lit "FOO_VAR_INIT", lit "( decl, ... ) 	decl = __VA_ARGS__"); (lit "FOO_VAR", lit "( decl ) 	decl"); (lit "FOO_H", []); (lit "FOO_IMPLEMENT", []) ] /\
  macros (fun _ => false) [] [(lit "BAR_IMPLEMENT", [])] (lines_of (10 :: filled (lit "FOO") header_begin ++ [10])) =
    [ (lit "FOO_INL", lit " 	inline"); (lit "FOO_VAR_INIT", lit "( decl, ... ) 	extern decl"); (lit "FOO_VAR", lit "( decl ) 	extern decl"); (lit "FOO_H", []); (lit "BAR_IMPLEMENT", []) ] /\
  macros (fun _ => true) [] [(lit "BAR_IMPLEMENT", [])] (lines_of (header (lit "FOO") cpp_body)) = [ (lit "FOO_H", []); (lit "BAR_IMPLEMENT", []) ].
Proof. exact macros_case. Qed.
