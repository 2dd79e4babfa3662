(** * What the standard library defines

    The library is the file /repo/lib/stdlib.yu: [Eg.stdlib_yu] is its text. Here is what each
    of its names stands for, behind an import of the library. *)
From Coq Require Import List NArith ZArith Bool String.
From Verif Require Import PyStr LexSpec Ast Lex Parse Final Eval Builtin Builtin2 Pp ParseSpec RunSpec Eg.
Import ListNotations.
Open Scope list_scope.
Open Scope N_scope.

(** ** Outside the preprocessor: no Python scripts; Python knows the names in the three expressions
    of the library, and the largest number *)
Definition library_names (ask : text -> res (list text)) (t : text) : res (list text) :=
  if teqb (strip t) (lit "sys.maxsize") || teqb (strip t) (lit "-sys.maxsize - 1") then Ok [lit "sys"]
  else if teqb (strip t) (lit "__i < __last") then Ok [lit "__i"; lit "__last"] else ask t.
Definition library_python (top : Z) (ask : text -> frame -> res node) (t : text) (f : frame) : res node :=
  if teqb (strip t) (lit "sys.maxsize") then Ok (NInt top)
  else if teqb (strip t) (lit "-sys.maxsize - 1") then Ok (NInt (- top - 1)) else ask t f.
(** nothing else is known under the names that the library takes for special forms or free *)
Definition library_others (ask : text -> option bval) (n : text) : option bval :=
  if mem n [lit "lazy"; lit "isatom"; lit "skip"; lit "EOL"] then None else ask n.
Definition with_library (top : Z) (input : option text) (w : world) : world :=
  World (w_read w) (w_unq w) (w_pyimport w) (w_evalimport w) (w_str w) (fun _ _ => None)
        (more_builtins (Ctx false SkipNone [] [] (w_read w) (w_unq w) (w_pyimport w) (w_evalimport w) (w_str w)) input (library_others (w_rest w)))
        (library_names (w_names w)) (library_python top (w_infix w)) (w_float_str w) (w_float_int w) (w_repr w) (w_lib w) (w_json w).
(** no browsing, no -D, comments of the target language are not known *)
Definition library_config (trim reduce : bool) (dirs : list text) (passage : Z) : config := Config 0 trim reduce false [] dirs passage.

(** ** Names *)
Definition nl : text := [10].
Definition tab : text := [9].
Definition vr (n : string) : node := NVar (RList []) (raw (lit n)).
Definition ap (f : node) (args : list node) : node := NApply f args [] None 0.
(** \cond.\then:[].\else:[].($ then ? cond | else) *)
Definition if_entry : entry :=
  EFunction [lit "cond"; lit "then"; lit "else"] [(lit "then", NRaw []); (lit "else", NRaw [])] (ap (NCond (vr "cond") (vr "then") (vr "else")) []).
(** \cond.\then:[].\else:[].($ else ? cond | then) *)
Definition unless_entry : entry :=
  EFunction [lit "cond"; lit "then"; lit "else"] [(lit "then", NRaw []); (lit "else", NRaw [])] (ap (NCond (vr "cond") (vr "else") (vr "then")) []).
(** \sig.\body.($join ($split [($unq "#define") ($sig) ($body)] __EOL__),, \($__EOL__)) *)
Definition sp (t : text) : node := NPlain (raw t) IndNone false.
Definition define_entry : entry :=
  EFunction [lit "sig"; lit "body"] []
    (ap (vr "join")
       [ap (vr "split") [NText [ap (vr "unq") [NStr (raw (34 :: lit "#define" ++ [34]))]; sp (lit " "); ap (vr "sig") []; sp (lit " "); ap (vr "body") []] 0 0; vr "__EOL__"];
        NText [NPlain (raw (lit " \")) IndFalse false; ap (vr "__EOL__") []] 0 0]).
(** \b.($atoi b 2) *)
Definition bin_entry : entry := EFunction [lit "b"] [] (ap (vr "atoi") [vr "b"; NInt 2]).
Definition dict_body : text :=
  nl ++ tab ++ lit "($set cols-($id) ($range ($len (($cols)) )))" ++ nl ++ tab ++ lit "($set each-($id) ($range ($len (($body)) )))" ++ nl ++ tab ++ lit "($set (($cols))" ++ nl ++
  tab ++ tab ++ lit "($cols-($id) \__i.($ (($body)) \__var.($__i __var)))" ++ nl ++ tab ++ lit ")" ++ nl.
Definition quoted (t : text) : text := 34 :: t ++ [34].
(** The names of the library, the latest first; [EOpen]: nothing is said about what the name stands for *)
Definition library_defs (top : Z) : defs :=
  [ (lit "INT_MIN", EValue (NInt (- top - 1)));
    (lit "INT_MAX", EValue (NInt top));
    (lit "def-fn-argv", EOpen);
    (lit "BB", EOpen);
    (lit "BIN", bin_entry);
    (lit "skip-if-not", EMacro [lit "cond"] (lit "($if ($not ($cond)) ($skip))"));
    (lit "skip-if", EMacro [lit "cond"] (lit "($if ($cond) ($skip))"));
    (lit "def-if", EMacro [lit "cond"; lit "name"] (lit "($set ($name) 1 ? ($cond) | 0)" ++ nl ++ lit "($if ($name) [($unq " ++ quoted (lit "#define") ++ lit ") ($name)])"));
    (lit "undef", EMacro [lit "name"] (lit "($set ($name) 0)" ++ nl ++ lit "($unq " ++ quoted (lit "#undef") ++ lit ")  ($name)"));
    (lit "def", EMacro [lit "name"] (lit "($set ($name) 1)" ++ nl ++ lit "($unq " ++ quoted (lit "#define") ++ lit ") ($name)"));
    (lit "define", define_entry);
    (lit "__EOL__", EValue (NRaw nl));
    (lit "foo", EMacro [lit "body"] (lit "({" ++ nl ++ lit "($body)" ++ nl ++ lit "})"));
    (lit "do", EMacro [lit "body"] (lit "do {" ++ nl ++ lit "($body)" ++ nl ++ lit "} while ( 0 )"));
    (lit "unfold", EOpen);
    (lit "unless", unless_entry);
    (lit "if", if_entry);
    (lit "dict", EMacro [lit "id"; lit "cols"; lit "body"] dict_body) ].
