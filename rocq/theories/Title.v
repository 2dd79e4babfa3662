(** * The entry __TITLE__ of the built-in functions

    Models /repo/pp/yugen.py 2738-2742: the function [Builtin2.b_title] under its name, in front
    of the rest of the table.  Whether the output is Python (yushell.output_python) and the name
    of the source (yushell.input_file) are set by yushell, 2658-2661, at the start of the run, and
    nothing changes them later.  [tool], [version]: the constants of yulic.py; [now]: the clock. *)
From Coq Require Import List NArith ZArith Bool.
From Verif Require Import PyStr Ast Eval Builtin Builtin2 Pp.

Definition titled (tool version now : text) (input output : option text) (other : text -> option bval) (name : text) : option bval :=
  if teqb name (lit "__TITLE__") then Some (BFun (b_title (is_python output) tool version (input_key input) now)) else other name.
