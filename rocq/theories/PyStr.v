(** * Python strings

    A Python 3 [str] is a finite sequence of code points; here a [list N].
    The functions below model the methods of [str] (and the two functions of
    [os.path]) that /repo/pp/yugen.py, /repo/pp/yup.py and /repo/__init__.py
    call.  They model CPython's library, not code of the repository. *)

From Coq Require String Ascii.
From Coq Require Import List NArith ZArith Bool Decimal.
Export String.StringSyntax.
Delimit Scope string_scope with string.
Import ListNotations.
Open Scope N_scope.
Arguments Ascii.N_of_ascii : simpl never.

Notation char := N (only parsing).
Notation text := (list N) (only parsing).

(** A string literal of the model. *)
Definition lit (s : String.string) : text := map Ascii.N_of_ascii (String.list_ascii_of_string s).
Arguments lit s%string_scope.

Definition c_tab : char := 9.
Definition c_lf : char := 10.
Definition c_cr : char := 13.
Definition c_space : char := 32.

(** [a == b] *)
Fixpoint teqb (a b : text) : bool :=
  match a, b with
  | [], [] => true
  | x :: a', y :: b' => (x =? y) && teqb a' b'
  | _, _ => false
  end.

(** [s.startswith(p)], also [s[:len(p)] == p] *)
Fixpoint startswith (p s : text) : bool :=
  match p, s with
  | [], _ => true
  | x :: p', y :: s' => (x =? y) && startswith p' s'
  | _ :: _, [] => false
  end.

(** [c in s] for one character *)
Definition has_char (c : char) (s : text) : bool := existsb (N.eqb c) s.

(** [s.find(p)], [None] for -1 *)
Fixpoint find_sub (p s : text) : option nat :=
  if startswith p s then Some O
  else match s with
       | [] => None
       | _ :: s' => option_map S (find_sub p s')
       end.

(** [s.rfind(c)] for one character, [None] for -1 *)
Fixpoint rfind_char (c : char) (s : text) : option nat :=
  match s with
  | [] => None
  | x :: s' => match rfind_char c s' with
               | Some i => Some (S i)
               | None => if x =? c then Some O else None
               end
  end.

(** [s.replace(old, new)] for non-empty [old]: left to right, non-overlapping;
    [skip] counts the characters of a match still to be dropped. *)
Fixpoint replace_skip (old new : text) (skip : nat) (s : text) : text :=
  match s with
  | [] => []
  | c :: r => match skip with
              | S k => replace_skip old new k r
              | O => if startswith old s
                     then new ++ replace_skip old new (pred (length old)) r
                     else c :: replace_skip old new O r
              end
  end.
Definition replace (old new s : text) : text := replace_skip old new O s.

(** Characters that [str.isspace] accepts (Unicode white space). *)
Definition py_isspace (c : char) : bool :=
  ((9 <=? c) && (c <=? 13)) || ((28 <=? c) && (c <=? 32)) || (c =? 133) || (c =? 160)
  || (c =? 5760) || ((8192 <=? c) && (c <=? 8202)) || (c =? 8232) || (c =? 8233)
  || (c =? 8239) || (c =? 8287) || (c =? 12288).

(** Line boundaries recognised by [str.splitlines]. *)
Definition py_isbreak (c : char) : bool :=
  ((10 <=? c) && (c <=? 13)) || ((28 <=? c) && (c <=? 30)) || (c =? 133)
  || (c =? 8232) || (c =? 8233).

(** [s.splitlines(True)] *)
Fixpoint splitlines_keep (s : text) : list text :=
  match s with
  | [] => []
  | c :: r =>
      if py_isbreak c then
        if c =? 13 then
          match r with
          | d :: r' => if d =? 10 then [c; d] :: splitlines_keep r'
                       else [c] :: splitlines_keep r
          | [] => [[c]]
          end
        else [c] :: splitlines_keep r
      else match splitlines_keep r with
           | [] => [[c]]
           | l :: ls => (c :: l) :: ls
           end
  end.

(** [s.splitlines()] *)
Fixpoint splitlines (s : text) : list text :=
  match s with
  | [] => []
  | c :: r =>
      if py_isbreak c then
        if c =? 13 then
          match r with
          | d :: r' => if d =? 10 then [] :: splitlines r' else [] :: splitlines r
          | [] => [[]]
          end
        else [] :: splitlines r
      else match splitlines r with
           | [] => [[c]]
           | l :: ls => (c :: l) :: ls
           end
  end.

(** [sep.join(l)] *)
Fixpoint join (sep : text) (l : list text) : text :=
  match l with
  | [] => []
  | [x] => x
  | x :: l' => x ++ sep ++ join sep l'
  end.

(** [s.lstrip()], [s.rstrip()], [s.strip()] *)
Fixpoint lstrip (s : text) : text :=
  match s with
  | [] => []
  | c :: r => if py_isspace c then lstrip r else s
  end.
Fixpoint rstrip (s : text) : text :=
  match s with
  | [] => []
  | c :: r => match rstrip r with
              | [] => if py_isspace c then [] else [c]
              | r' => c :: r'
              end
  end.
Definition strip (s : text) : text := rstrip (lstrip s).

(** [s.lower()] restricted to ASCII (simplification: other letters unchanged). *)
Definition lower_char (c : char) : char := if (65 <=? c) && (c <=? 90) then c + 32 else c.
Definition upper_char (c : char) : char := if (97 <=? c) && (c <=? 122) then c - 32 else c.
Definition lower (s : text) : text := map lower_char s.
Definition upper (s : text) : text := map upper_char s.

(** [str(n)] of an integer *)
Fixpoint uint_text (u : Decimal.uint) : text :=
  match u with
  | Decimal.Nil => []
  | Decimal.D0 u => 48 :: uint_text u
  | Decimal.D1 u => 49 :: uint_text u
  | Decimal.D2 u => 50 :: uint_text u
  | Decimal.D3 u => 51 :: uint_text u
  | Decimal.D4 u => 52 :: uint_text u
  | Decimal.D5 u => 53 :: uint_text u
  | Decimal.D6 u => 54 :: uint_text u
  | Decimal.D7 u => 55 :: uint_text u
  | Decimal.D8 u => 56 :: uint_text u
  | Decimal.D9 u => 57 :: uint_text u
  end.
Definition nat_text (n : nat) : text := uint_text (Nat.to_uint n).
Definition Z_text (z : Z) : text :=
  match z with
  | Z0 => [48]
  | Zpos p => uint_text (Pos.to_uint p)
  | Zneg p => 45 :: uint_text (Pos.to_uint p)
  end.

Definition is_digit (c : char) : bool := (48 <=? c) && (c <=? 57).

(** [s.isdigit()] (simplification: ASCII digits only) *)
Definition all_digits (s : text) : bool :=
  match s with [] => false | _ => forallb is_digit s end.

(** [s[i:]] for a non-negative [i] is [skipn i s]; [s[:i]] is [firstn i s]. *)

(** Slices with possibly negative bounds: [s[i:]] and [s[:i]]. *)
Definition norm_index (len : nat) (i : Z) : nat :=
  if (i <? 0)%Z then Z.to_nat (Z.of_nat len + i) else Nat.min (Z.to_nat i) len.
Definition py_from {A} (i : Z) (s : list A) : list A := skipn (norm_index (length s) i) s.
Definition py_to {A} (i : Z) (s : list A) : list A := firstn (norm_index (length s) i) s.

(** ** os.path (POSIX) *)

Definition c_slash : char := 47.
Definition c_dot : char := 46.

(** [os.path.basename(p)]: the part after the last slash *)
Fixpoint basename (p : text) : text :=
  match p with
  | [] => []
  | c :: r => if has_char c_slash p then basename r else p
  end.

(** index just after the last slash *)
Definition base_index (p : text) : nat :=
  match rfind_char c_slash p with Some i => S i | None => O end.

(** [os.path.dirname(p)]: head up to and including the last slash, without
    trailing slashes unless it consists of slashes only *)
Fixpoint rstrip_slash (p : text) : text :=
  match p with
  | [] => []
  | c :: r => match rstrip_slash r with
              | [] => if c =? c_slash then [] else [c]
              | r' => c :: r'
              end
  end.
Definition dirname (p : text) : text :=
  let head := firstn (base_index p) p in
  match rstrip_slash head with [] => head | h => h end.

(** [os.path.join(a, b)] *)
Definition path_join (a b : text) : text :=
  if startswith [c_slash] b then b
  else match a with
       | [] => b
       | _ => if match rfind_char c_slash a with
                 | Some i => Nat.eqb (S i) (length a)
                 | None => false
                 end
              then a ++ b else a ++ c_slash :: b
       end.

(** [os.path.splitext(p)] as CPython's [genericpath._splitext] computes it:
    the last dot must follow the last slash and some character between them
    must not be a dot. *)
Definition splitext (p : text) : text * text :=
  let b := base_index p in
  match rfind_char c_dot p with
  | None => (p, [])
  | Some d =>
      if Nat.leb b d && existsb (fun c => negb (c =? c_dot)) (firstn (d - b) (skipn b p))
      then (firstn d p, skipn d p)
      else (p, [])
  end.
