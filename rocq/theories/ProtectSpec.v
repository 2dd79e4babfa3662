(** * Vocabulary: text in which every construct is inside a comment or a literal *)
From Coq Require Import List NArith ZArith Bool.
From Verif Require Import PyStr LexSpec Ast Parse.
Import ListNotations.
Open Scope N_scope.

Definition begins (p t : text) : Prop := exists r, t = p ++ r.

(** The comments of the language [m], and what may follow them. *)
Inductive target_comment : skip_mode -> text -> text -> Prop :=
| tc_line body rest : Forall (fun c => ~ line_end c) body -> rest = [] \/ (exists c r, rest = c :: r /\ line_end c) ->
    target_comment SkipC (lit "//" ++ body) rest
| tc_block body rest : ~ occurs (lit "*/") (body ++ lit "*") -> target_comment SkipC (lit "/*" ++ body ++ lit "*/") rest
| tc_hash body rest : Forall (fun c => ~ line_end c) body -> rest = [] \/ (exists c r, rest = c :: r /\ line_end c) ->
    target_comment SkipPython (35 :: body) rest.
Definition comment_begins (m : skip_mode) (t : text) : Prop :=
  match m with
  | SkipNone => False
  | SkipC => begins (lit "//") t \/ begins (lit "/*") t
  | SkipPython => begins (lit "#") t
  end.

(** The inside of a C literal: a backslash takes the character behind it, which
    is not a line feed, along; the quote [q] does not occur otherwise. *)
Inductive literal_inside (q : char) : text -> Prop :=
| li_nil : literal_inside q []
| li_char c r : c <> q -> c <> 92 -> literal_inside q r -> literal_inside q (c :: r)
| li_escape c r : c <> 10 -> literal_inside q r -> literal_inside q (92 :: c :: r).

(** ** String literals of Python *)
Definition string_quote (q : char) : Prop := q = 34 \/ q = 39.
Inductive string_prefix : text -> Prop :=
| sx_none : string_prefix []
| sx_u a : a = 117 \/ a = 85 -> string_prefix [a]
| sx_r b : b = 114 \/ b = 82 -> string_prefix [b]
| sx_ur a b : a = 117 \/ a = 85 -> b = 114 \/ b = 82 -> string_prefix [a; b].
(** The inside of a literal: a backslash takes the character behind it along. *)
(** on one line *)
Inductive line_inside (q : char) : text -> Prop :=
| ln_nil : line_inside q []
| ln_char c r : c <> q -> c <> 92 -> c <> 10 -> line_inside q r -> line_inside q (c :: r)
| ln_escape c r : c <> 10 -> line_inside q r -> line_inside q (92 :: c :: r).
(** on several lines, every line end behind a backslash *)
Inductive lines_inside (q : char) : text -> Prop :=
| ls_nil : lines_inside q []
| ls_char c r : c <> q -> c <> 92 -> c <> 10 -> lines_inside q r -> lines_inside q (c :: r)
| ls_escape c r : lines_inside q r -> lines_inside q (92 :: c :: r).
(** between three quotes: no three quotes, the first of the closing ones included *)
Inductive triple_inside (q : char) : text -> Prop :=
| tr_nil : triple_inside q []
| tr_char c r : c <> q -> c <> 92 -> triple_inside q r -> triple_inside q (c :: r)
| tr_escape c r : triple_inside q r -> triple_inside q (92 :: c :: r)
| tr_quote r : ~ begins [q; q] (r ++ [q; q; q]) -> triple_inside q r -> triple_inside q (q :: r).
(** A literal and what follows it.  A literal in double quotes that is continued on
    the next line has no apostrophe in its first line. *)
Inductive python_literal : text -> text -> Prop :=
| pl_line p q body r : string_prefix p -> string_quote q -> line_inside q body -> (body = [] -> ~ begins [q] r) ->
    python_literal (p ++ q :: body ++ [q]) r
| pl_lines p q head body r : string_prefix p -> string_quote q -> line_inside q head -> (q = 34 -> ~ In 39 head) -> lines_inside q body ->
    python_literal (p ++ q :: head ++ [92; 10] ++ body ++ [q]) r
| pl_triple p q body r : string_prefix p -> string_quote q -> triple_inside q body ->
    python_literal (p ++ [q; q; q] ++ body ++ [q; q; q]) r.
Definition string_begins (t : text) : Prop := exists p q r, string_prefix p /\ string_quote q /\ t = p ++ q :: r.

(** A text that ends with [tail] and consists of ordinary characters, comments
    and literals before it.  No construct begins at an ordinary
    character; comments and literals are unrestricted. *)
Inductive protected (python : bool) (m : skip_mode) (tail : text) : text -> Prop :=
| pr_tail : protected python m tail tail
| pr_char c r : permitted c -> c <> 34 -> c <> 39 -> ~ begins (lit "($") (c :: r) -> ~ begins (lit "(`") (c :: r) ->
    ~ comment_begins m (c :: r) -> (python = true -> ~ string_begins (c :: r)) -> protected python m tail r -> protected python m tail (c :: r)
| pr_literal q body r : python = false -> q = 34 \/ q = 39 -> literal_inside q body ->
    protected python m tail r -> protected python m tail (q :: body ++ q :: r)
| pr_python w r : python = true -> python_literal w r -> protected python m tail r -> protected python m tail (w ++ r)
| pr_comment c r : target_comment m c r -> protected python m tail r -> protected python m tail (c ++ r).

(** A C comment that is not closed *)
Definition unclosed (m : skip_mode) (t : text) : Prop := m = SkipC /\ exists body, t = lit "/*" ++ body /\ ~ occurs (lit "*/") body.
