(** * Error locations and AST beautifying

    Models /repo/pp/yugen.py 155-197 (_ast_pretty) and 216-244 (_loc). *)

From Coq Require Import List NArith ZArith Bool.
From Verif Require Import PyStr Ast Lex.
Import ListNotations.
Open Scope N_scope.

(** ** _loc: the line number; yugen.py 231-236 *)

(** [sou.find( EOL, pos )], the length of the text if absent *)
Definition eol_from (sou : text) (pos : nat) : nat :=
  match find_sub [10] (skipn pos sou) with
  | Some k => (pos + k)%nat
  | None => length sou
  end.
Definition loc_line (sou : text) (pos : nat) : nat :=
  length (splitlines (firstn (eol_from sou pos) sou)).
(** the text of the line that is shown; yugen.py 237 *)
Definition loc_text (sou : text) (pos : nat) : text :=
  match splitlines (firstn (eol_from sou pos) sou) with
  | [] => lit "<not found>"
  | l => lstrip (last l [])
  end.
(** number of blanks before the caret; yugen.py 241 *)
Definition loc_caret (sou : text) (pos : nat) : Z :=
  (Z.of_nat pos - Z.of_nat (eol_from sou pos) + Z.of_nat (length (loc_text sou pos)))%Z.

(** _loc for a file source that is not a macro: the formatted lines are
    represented by their fields.  For macros the call and the declaration come
    first (221-227). *)
Inductive locline := LFile (name : text) (line : nat) | LMacro (name : text) (line : nat).
Definition decl_name (d : decl) (file : text) : text :=
  match d with
  | DPath (c :: p) => c :: p
  | DSrc s => s_txt s
  | _ => file
  end.
Fixpoint loc_chain (n : nat) (source : list (text * (decl * text)))
  (inclusion : list (option Ast.source)) (file : text) (pos : nat) : option (list locline) :=
  match n with
  | O => None
  | S m =>
      match dict_get file source with
      | None => None
      | Some (d, sou) =>
          let here mk := [mk (decl_name d file) (loc_line sou pos)] in
          if all_digits file then
            let at_ (s : Ast.source) :=
              match s_file s with
              | Some f => loc_chain m source inclusion f (Z.to_nat (s_pos s))
              | None => None
              end in
            let call := match nth_error inclusion (Z.to_nat (digits_val 10 0 file)) with
                        | Some (Some c) => at_ c
                        | Some None => Some []
                        | None => None
                        end in
            let dcl := match d with DSrc s => at_ s | _ => None end in
            match call, dcl with
            | Some a, Some b => Some (a ++ b ++ here LMacro)
            | _, _ => None
            end
          else Some (here LFile)
      end
  end.

(** ** _ast_pretty; yugen.py 155-197 *)

Definition is_closing (c : char) : bool := (c =? 41) || (c =? 93) || (c =? 125).
Definition is_opening (c : char) : bool := (c =? 40) || (c =? 91) || (c =? 123).

(** The dictionary [parenth] (index to (end or None, depth)) as a list; the stack
    [p[ 0 .. depth-1 ]] of open bracket positions (entries above [depth] are
    overwritten before they are read again). *)
Fixpoint scan_brackets (i : nat) (stack : list nat) (st : text) : list (nat * (option nat * nat)) :=
  match st with
  | [] => []
  | c :: r =>
      if is_closing c then
        match stack with
        | o :: s' => (o, (Some i, length s')) :: (i, (None, length s')) :: scan_brackets (S i) s' r
        | [] => scan_brackets (S i) [] r
        end
      else if is_opening c then scan_brackets (S i) (i :: stack) r
      else scan_brackets (S i) stack r
  end.
(** [sorted( parenth )]: insertion by key (keys are distinct) *)
Fixpoint insert_key {A} (e : nat * A) (l : list (nat * A)) : list (nat * A) :=
  match l with
  | [] => [e]
  | x :: r => if Nat.leb (fst e) (fst x) then e :: l else x :: insert_key e r
  end.
Fixpoint sort_keys {A} (l : list (nat * A)) : list (nat * A) :=
  match l with [] => [] | x :: r => insert_key x (sort_keys r) end.

Fixpoint repeat_text (n : nat) (t : text) : text :=
  match n with O => [] | S m => t ++ repeat_text m t end.
Definition pretty_indent (d : nat) : text := repeat_text d (lit "  ").
(** [st[ i : j ]] *)
Definition slice (i j : nat) (st : text) : text := firstn (j - i) (skipn i st).

Fixpoint pretty_loop (st : text) (l : list (nat * (option nat * nat))) (i : nat) (result : text) : text :=
  match l with
  | [] => result ++ skipn i st
  | (b, (e, depth)) :: rest =>
      if Nat.leb i b then
        match e with
        | None =>
            let piece :=
              if Nat.eqb i b then pretty_indent depth ++ slice i (S b) st ++ [c_lf]
              else pretty_indent (S depth) ++ slice i b st ++ [c_lf]
                   ++ pretty_indent depth ++ slice b (S b) st ++ [c_lf] in
            pretty_loop st rest (S b) (result ++ piece)
        | Some e =>
            (* e - b + 2 * depth < 100: do not split a short node *)
            let b' := if Nat.ltb (e - b + 2 * depth) 100 then e else b in
            pretty_loop st rest (S b') (result ++ pretty_indent depth ++ slice i (S b') st ++ [c_lf])
        end
      else pretty_loop st rest i result
  end.
Definition ast_pretty (st : text) : text :=
  pretty_loop st (sort_keys (scan_brackets 0 [] st)) 0 [].
