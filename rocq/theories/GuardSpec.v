(** * What the library of headers writes

    The library is the file /repo/lib/h-light.yu: [Eg.h_light_yu] is its text. *)
From Coq Require Import List NArith ZArith Bool String.
From Verif Require Import PyStr Ast FinalSpec RunSpec.
Import ListNotations.
Open Scope list_scope.
Open Scope N_scope.

(** the text with [n] in the places marked by @ *)
Definition filled (n t : text) : text := flat_map (fun c => if c =? 64 then n else [c]) t.
(** ($h-begin name), from the second line on *)
Definition header_begin : text := lit "#ifndef @_H
#define @_H

#ifdef  @_IMPLEMENT
#define @_VAR( decl ) \
	decl
#define @_VAR_INIT( decl, ... ) \
	decl = __VA_ARGS__

#define @_INL

#else  /* @_IMPLEMENT */
#define @_VAR( decl ) \
	extern decl
#define @_VAR_INIT( decl, ... ) \
	extern decl

#if __GNUC__ && !__GNUC_STDC_INLINE__
#define @_INL \
	extern inline
#else
#define @_INL \
	inline
#endif

#endif /* @_IMPLEMENT */
".
(** ($h-end) *)
Definition header_end : text := lit "
#undef @_VAR
#undef @_VAR_INIT
#undef @_INL
#endif
".
(** The macros of the library, the latest first *)
Definition shown_name : text := lit "($h-name)".
Definition light_defs : defs :=
  [ (lit "inline", EMacro [] (shown_name ++ lit "_INL"));
    (lit "var-init", EMacro [lit "dec"; lit "init"] (shown_name ++ lit "_VAR_INIT( ($dec), ($init) );"));
    (lit "var", EMacro [lit "dec"] (shown_name ++ lit "_VAR( ($dec) );"));
    (lit "extern-c-end", EMacro [] (lit "
#ifdef __cplusplus
}
#endif
"));
    (lit "extern-c-begin", EMacro [] (lit "
#ifdef __cplusplus
extern ""C"" {
#endif
"));
    (lit "implement-named", EMacro [] (lit "($implement ($__MODULE_NAME__))"));
    (lit "implement", EMacro [lit "name"] (lit "
#define ($upper ($name))_IMPLEMENT
"));
    (lit "h-begin-named", EMacro [] (lit "
($set h-name ($__MODULE_NAME__))
($h-begin ($__MODULE_NAME__))
"));
    (lit "h-end", EMacro [] (filled shown_name header_end));
    (lit "h-begin", EMacro [lit "name"] (10 :: lit "($set h-name ($upper ($name)))" ++ 10 :: filled shown_name header_begin)) ].
(** ** A header: ($import h-light)($h-begin name), the declarations and ($h-end) *)
Definition header_source (n b : text) : text := lit "($import h-light)($h-begin " ++ n ++ lit ")" ++ 10 :: b ++ 10 :: lit "($h-end)".
Definition header (n b : text) : text := 10 :: filled n header_begin ++ 10 :: b ++ 10 :: filled n header_end.
(** declarations without quotes, $ and ` *)
Definition declaration_char (c : char) : Prop := c = 9 \/ c = 10 \/ (32 <= c <= 126 /\ ~ In c [34; 39; 36; 96]).
(** declarations the reduction of empty lines leaves alone: no spacing at the end of a line, no two
    blank lines in succession, none at the ends *)
Definition settled (b : text) : Prop :=
  exists ls, b ++ [10] = unlines ls /\ Forall tidy ls /\ never_twice (eq []) ls /\ hd [] ls <> [] /\ last ls [] <> [].
