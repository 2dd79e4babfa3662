(** * Built-in functions

    Models the entries of the [builtin] dictionary of /repo/pp/yugen.py 2701-2785
    that are about lists, comparison, integers and steady white space.  Entries
    taken from the Python modules string, operator and math, floating point and
    the functions that depend on time or encodings stay in an oracle
    ([rest] below). *)

From Coq Require Import List NArith ZArith Bool.
From Verif Require Import PyStr Ast Lex Parse Final Eval.
Import ListNotations.
Open Scope N_scope.

(** ** Python values *)

(** an [int] ([bool] is a subclass) *)
Definition int_of (x : node) : option Z :=
  match x with NInt z => Some z | NBool b => Some (if b then 1 else 0)%Z | _ => None end.

(** [a == b] on the values that can be arguments: strings compare by text
    whatever their class (283-286), numbers by value, lists element by element,
    None with None.  Floats compare by literal (simplification: a float and an
    int are different); TRIM and LAZY by content. *)
Fixpoint py_eq (a b : node) : bool :=
  match int_of a, int_of b with
  | Some x, Some y => (x =? y)%Z
  | _, _ =>
      match str_of a, str_of b with
      | Some x, Some y => teqb x y
      | _, _ =>
          match a, b with
          | NNone, NNone => true
          | NFloat x, NFloat y => teqb x y
          | (NList l | NT l _), (NList m | NT m _) =>
              (fix go (l m : list node) : bool :=
                 match l, m with
                 | [], [] => true
                 | x :: l', y :: m' => py_eq x y && go l' m'
                 | _, _ => false
                 end) l m
          | NTrim x _, NTrim y _ => py_eq x y
          | NLazy x, NLazy y => py_eq x y
          | _, _ => false
          end
      end
  end.

(** hashable: strings, numbers, None *)
Definition hashable (x : node) : bool :=
  match x with
  | NNone | NFloat _ => true
  | _ => match int_of x, str_of x with None, None => false | _, _ => true end
  end.

Definition type_error {A} : M A := throw (Exn TypeError "python: argument").

(** a sequence: list or string; slices of strings are strings *)
Inductive seq := SeqL (l : list node) | SeqS (t : text).
Definition seq_of (x : node) : option seq :=
  match list_of x with
  | Some l => Some (SeqL l)
  | None => option_map SeqS (str_of x)
  end.
(** apply a slice to either kind *)
Definition on_seq (f : forall A, list A -> list A) (x : node) : M node :=
  match seq_of x with
  | Some (SeqL l) => ret (NList (f _ l))
  | Some (SeqS t) => ret (NRaw (f _ t))
  | None => type_error
  end.

Definition arg1 (k : node -> M node) (args : list node) : M node :=
  match args with [x] => k x | _ => type_error end.
Definition arg2 (k : node -> node -> M node) (args : list node) : M node :=
  match args with [x; y] => k x y | _ => type_error end.

(** 'car' 2745, 'cdr' 2746, 'reversed' 2773, 'len' 2762 *)
Definition b_car := arg1 (on_seq (fun _ l => firstn 1 l)).
Definition b_cdr := arg1 (on_seq (fun _ l => skipn 1 l)).
Definition b_reversed := arg1 (on_seq (fun _ l => rev l)).
Definition seq_len (x : node) : option nat :=
  match seq_of x with
  | Some (SeqL l) => Some (length l)
  | Some (SeqS t) => Some (length t)
  | None => None
  end.
Definition b_len := arg1 (fun x =>
  match seq_len x with Some n => ret (NInt (Z.of_nat n)) | None => type_error end).
(** 'list' 2763 *)
Definition b_list (args : list node) : M node := ret (NList args).
(** 'islist' 2761 *)
Definition b_islist := arg1 (fun x =>
  ret (NBool (match list_of x with Some _ => true | None => false end))).

(** 'inc' 2756, 'dec' 2750 (floats: not modelled) *)
Definition b_inc := arg1 (fun x =>
  match int_of x with Some z => ret (NInt (z + 1)) | None => type_error end).
Definition b_dec := arg1 (fun x =>
  match int_of x with Some z => ret (NInt (z - 1)) | None => type_error end).

(** 'index' 2758: position of the first occurrence or -1 *)
Fixpoint index_of (v : node) (l : list node) : option nat :=
  match l with
  | [] => None
  | x :: r => if py_eq x v then Some O else option_map S (index_of v r)
  end.
Definition opt_index (o : option nat) : node :=
  NInt (match o with Some i => Z.of_nat i | None => -1 end).
(** for a string both search for a substring *)
Definition b_index := arg2 (fun l v =>
  match seq_of l with
  | Some (SeqL l) => ret (opt_index (index_of v l))
  | Some (SeqS t) => match str_of v with
                     | Some p => ret (opt_index (find_sub p t))
                     | None => type_error
                     end
  | None => type_error
  end).
(** 'rindex' 2776: ( len( l ) - 1 ) - l[ ::-1 ].index( val ) if val in l else -1;
    for strings [l[ ::-1 ].index( val )] raises ValueError if val is in l but not in its reverse *)
Definition b_rindex := arg2 (fun l v =>
  match seq_of l with
  | Some (SeqL l) =>
      match index_of v l with
      | None => ret (NInt (-1))
      | Some _ => match index_of v (rev l) with
                  | Some i => ret (NInt (Z.of_nat (length l) - 1 - Z.of_nat i))
                  | None => throw (Exn ValueError "not in list")
                  end
      end
  | Some (SeqS t) =>
      match str_of v with
      | Some p =>
          match find_sub p t with
          | None => ret (NInt (-1))
          | Some _ => match find_sub p (rev t) with
                      | Some i => ret (NInt (Z.of_nat (length t) - 1 - Z.of_nat i))
                      | None => throw (Exn ValueError "substring not found")
                      end
          end
      | None => type_error
      end
  | None => type_error
  end).

(** 'range' 2772: LIST( list( range( *l ))) *)
Fixpoint zrange (n : nat) (start step : Z) : list node :=
  match n with O => [] | S m => NInt start :: zrange m (start + step) step end.
(** number of elements of range( start, stop, step ), step not 0 *)
Definition range_len (start stop step : Z) : nat :=
  if (0 <? step)%Z
  then Z.to_nat ((stop - start + step - 1) / step)
  else Z.to_nat ((start - stop - step - 1) / (- step)).
Definition py_range (start stop step : Z) : list node := zrange (range_len start stop step) start step.
Definition b_range (args : list node) : M node :=
  match map int_of args with
  | [Some b] => ret (NList (py_range 0 b 1))
  | [Some a; Some b] => ret (NList (py_range a b 1))
  | [Some a; Some b; Some s] =>
      if (s =? 0)%Z then throw (Exn ValueError "range() arg 3 must not be zero")
      else ret (NList (py_range a b s))
  | _ => type_error
  end.

(** 'unique' 2783: the default argument [s=set()] is shared by all calls of the
    process ([y_unique]); with two arguments the second must be a set, which no
    expression yields.  Strings iterate over their characters. *)
Fixpoint unique_loop (acc : list node) (l : list node) : M (list node) :=
  match l with
  | [] => ret (rev acc)
  | x :: r =>
      if negb (hashable x) then type_error
      else
        bind get_st (fun st =>
        if existsb (py_eq x) (y_unique st) then unique_loop acc r
        else bind (modify (set_unique (y_unique st ++ [x]))) (fun _ => unique_loop (x :: acc) r))
  end.
Definition b_unique := arg1 (fun x =>
  match py_iter x with
  | Some l => bind (unique_loop [] l) (fun l => ret (NList l))
  | None => type_error
  end).

(** 'getslice' 2753: l[ slice( *( None if x == '' else x for x in sl )) ] *)
Definition slice_arg (x : node) : option (option Z) :=
  match x with
  | NNone => Some None
  | _ => match int_of x with
         | Some z => Some (Some z)
         | None => match str_of x with Some [] => Some None | _ => None end
         end
  end.
(** l[ a:b:s ] for a step other than 0 and 1: the elements at the indices lo,
    lo + s, ... before hi; PySlice_AdjustIndices *)
Definition slice_bound (n : Z) (back : bool) (dflt : Z) (o : option Z) : Z :=
  match o with
  | None => dflt
  | Some z => let z := if (z <? 0)%Z then (z + n)%Z else z in
              if back then Z.max (-1) (Z.min z (n - 1)) else Z.max 0 (Z.min z n)
  end.
Definition slice_step {A} (a b : option Z) (s : Z) (l : list A) : list A :=
  let n := Z.of_nat (length l) in
  let back := (s <? 0)%Z in
  let lo := slice_bound n back (if back then n - 1 else 0)%Z a in
  let hi := slice_bound n back (if back then -1 else n)%Z b in
  flat_map (fun i => match nth_error l (Z.to_nat (lo + Z.of_nat i * s)) with Some x => [x] | None => [] end)
    (List.seq 0 (range_len lo hi s)).
(** l[ a:b ]; PySlice_AdjustIndices *)
Definition slice1 {A} (a b : option Z) (l : list A) : list A :=
  let n := length l in
  let lo := match a with Some z => norm_index n z | None => O end in
  let hi := match b with Some z => norm_index n z | None => n end in
  firstn (hi - lo) (skipn lo l).
Definition b_getslice (args : list node) : M node :=
  match args with
  | [l; b] => match slice_arg b with
              | Some b => on_seq (fun _ l => slice1 None b l) l
              | None => type_error
              end
  | [l; a; b] => match slice_arg a, slice_arg b with
                 | Some a, Some b => on_seq (fun _ l => slice1 a b l) l
                 | _, _ => type_error
                 end
  | [l; a; b; c] =>
      match slice_arg a, slice_arg b, slice_arg c with
      | Some a, Some b, Some c =>
          match c with
          | None | Some 1%Z => on_seq (fun _ l => slice1 a b l) l
          | Some 0%Z => throw (Exn ValueError "slice step cannot be zero")
          | Some c => on_seq (fun _ l => slice_step a b c l) l
          end
      | _, _, _ => type_error
      end
  | _ => type_error
  end.

(** operator.* on integers, strings and lists *)
Definition b_add := arg2 (fun x y =>
  match int_of x, int_of y with
  | Some a, Some b => ret (NInt (a + b))
  | _, _ =>
      match seq_of x, seq_of y with
      | Some (SeqL a), Some (SeqL b) => ret (NList (a ++ b))
      | Some (SeqS a), Some (SeqS b) => ret (NRaw (a ++ b))
      | _, _ => type_error
      end
  end).
Definition b_int2 (f : Z -> Z -> node) := arg2 (fun x y =>
  match int_of x, int_of y with Some a, Some b => ret (f a b) | _, _ => type_error end).
Definition b_sub := b_int2 (fun a b => NInt (a - b)).
(** a sequence times an integer is that many copies of it *)
Definition b_mul := arg2 (fun x y =>
  match int_of x, int_of y with
  | Some a, Some b => ret (NInt (a * b))
  | None, Some n => on_seq (fun _ l => concat (repeat l (Z.to_nat n))) x
  | Some n, None => on_seq (fun _ l => concat (repeat l (Z.to_nat n))) y
  | None, None => type_error
  end).
(** comparison of two strings: by code points, from the left *)
Fixpoint text_cmp (a b : text) : comparison :=
  match a, b with
  | [], [] => Eq
  | [], _ :: _ => Lt
  | _ :: _, [] => Gt
  | x :: a', y :: b' => match (x ?= y) with Eq => text_cmp a' b' | c => c end
  end.
(** order of integers and of strings; the order of lists and floats is not modelled *)
Definition b_order (f : comparison -> node) := arg2 (fun x y =>
  match int_of x, int_of y with
  | Some a, Some b => ret (f (a ?= b)%Z)
  | _, _ =>
      match str_of x, str_of y with
      | Some a, Some b => ret (f (text_cmp a b))
      | _, _ => type_error
      end
  end).
Definition b_lt := b_order (fun c => NBool (match c with Lt => true | _ => false end)).
Definition b_le := b_order (fun c => NBool (match c with Gt => false | _ => true end)).
Definition b_gt := b_order (fun c => NBool (match c with Gt => true | _ => false end)).
Definition b_ge := b_order (fun c => NBool (match c with Lt => false | _ => true end)).
Definition b_eq := arg2 (fun x y => ret (NBool (py_eq x y))).
Definition b_ne := arg2 (fun x y => ret (NBool (negb (py_eq x y)))).
Definition b_not := arg1 (fun x => ret (NBool (negb (truthy x)))).

(** 'SPACE' 2778, 'TAB' 2782, '__FILE__' 2735, '__OUTPUT_FILE__' 2736 *)
Definition b_space (args : list node) : M node :=
  match args with [] => ret (NRaw [steady_space]) | _ => type_error end.
Definition b_tab (args : list node) : M node :=
  match args with [] => ret (NRaw [steady_tab]) | _ => type_error end.
Definition b_file (main : text) (args : list node) : M node :=
  match args with [] => ret (NRaw (34 :: main ++ [34])) | _ => type_error end.
Definition b_output_file (args : list node) : M node :=
  match args with
  | [] => bind get_st (fun st => ret (NRaw (34 :: y_output st ++ [34])))
  | _ => type_error
  end.
Definition b_str1 (f : text -> text) := arg1 (fun x =>
  match str_of x with Some t => ret (NRaw (f t)) | None => throw (Exn AttributeError "str") end).

Definition core : list (text * (list node -> M node)) :=
  [ (lit "car", b_car); (lit "cdr", b_cdr); (lit "reversed", b_reversed); (lit "len", b_len);
    (lit "list", b_list); (lit "islist", b_islist); (lit "inc", b_inc); (lit "dec", b_dec);
    (lit "index", b_index); (lit "rindex", b_rindex); (lit "range", b_range);
    (lit "unique", b_unique); (lit "getslice", b_getslice);
    (lit "add", b_add); (lit "sub", b_sub); (lit "mul", b_mul);
    (lit "lt", b_lt); (lit "le", b_le); (lit "gt", b_gt); (lit "ge", b_ge);
    (lit "eq", b_eq); (lit "ne", b_ne); (lit "not", b_not);
    (lit "SPACE", b_space); (lit "TAB", b_tab);
    (lit "__OUTPUT_FILE__", b_output_file);
    (lit "lower", b_str1 lower); (lit "upper", b_str1 upper) ].

(** [builtin]: the definitions of -D (2788-2796), then the names imported from
    Python scripts, then the table above, then everything else. *)
Definition builtin_with (defines : list (text * node))
  (scripts : list text -> text -> option bval) (main : text)
  (rest : text -> option bval) (imported : list text) (name : text) : option bval :=
  match scripts imported name with
  | Some b => Some b
  | None =>
      match dict_get name defines with
      | Some v => Some (BConst v)
      | None =>
          if teqb name (lit "__FILE__") then Some (BFun (b_file main))
          else match dict_get name core with
               | Some f => Some (BFun f)
               | None => rest name
               end
      end
  end.
