(** * What a C preprocessor includes

    Lines, conditions and definitions of the language a header is written in; expressions after #if
    are left to [holds], and macros are not expanded. *)
From Coq Require Import List NArith Bool String.
From Verif Require Import PyStr Ast.
Import ListNotations.
Open Scope list_scope.
Open Scope N_scope.

(** The lines of a text; a line that ends with a backslash goes on in the next one *)
Fixpoint lines_from (front t : text) : list text :=
  match t with
  | [] => match front with [] => [] | _ => [front] end
  | 92 :: 10 :: t => lines_from front t
  | 10 :: t => front :: lines_from [] t
  | c :: t => lines_from (front ++ [c]) t
  end.
Definition lines_of (t : text) : list text := lines_from [] t.
Definition c_blank (c : char) : bool := (c =? 32) || (c =? 9).
Definition c_letter (c : char) : bool := (97 <=? c) && (c <=? 122) || (65 <=? c) && (c <=? 90).
Definition c_word (c : char) : bool := c_letter c || (48 <=? c) && (c <=? 57) || (c =? 95).
Fixpoint past (p : char -> bool) (t : text) : text := match t with c :: r => if p c then past p r else t | [] => [] end.
Fixpoint front_of (p : char -> bool) (t : text) : text := match t with c :: r => if p c then c :: front_of p r else [] | [] => [] end.
(** A directive: its name, the first word behind it and all that is behind it *)
Definition directive (l : text) : option (text * text * text) :=
  match past c_blank l with
  | 35 :: r => let r := past c_blank r in let b := past c_letter r in Some (front_of c_letter r, front_of c_word (past c_blank b), b)
  | _ => None
  end.
(** Which names are defined *)
Definition defined (D : text -> bool) (n : text) (b : bool) : text -> bool := fun m => if teqb m n then b else D m.
Section Inclusion.
Variable holds : text -> bool.
(** [k]: what became of the conditions that are open, the innermost first.  The lines that are kept,
    the conditions still open and the names defined at the end. *)
Fixpoint includes (k : list bool) (D : text -> bool) (ls : list text) : list text * list bool * (text -> bool) :=
  match ls with
  | [] => ([], k, D)
  | l :: ls =>
      let on := forallb (fun c => c) k in
      match directive l with
      | None => let '(o, k', D') := includes k D ls in (if on then l :: o else o, k', D')
      | Some (w, n, r) =>
          if teqb w (lit "ifndef") then includes (negb (D n) :: k) D ls
          else if teqb w (lit "ifdef") then includes (D n :: k) D ls
          else if teqb w (lit "if") then includes (holds r :: k) D ls
          else if teqb w (lit "else") then includes (match k with c :: k => negb c :: k | [] => [] end) D ls
          else if teqb w (lit "endif") then includes (tl k) D ls
          else if teqb w (lit "define") then includes k (if on then defined D n true else D) ls
          else if teqb w (lit "undef") then includes k (if on then defined D n false else D) ls
          else let '(o, k', D') := includes k D ls in (if on then l :: o else o, k', D')
      end
  end.
End Inclusion.
(** a line with something in it *)
Definition blank_line (l : text) : bool := forallb c_blank l.
