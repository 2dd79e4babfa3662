(** * More built-in functions

    Models the entries of the [builtin] dictionary of /repo/pp/yugen.py 2701-2785
    that work on texts, and those taken from the module operator that work on
    integers.  They are offered as the part [rest] of [Builtin.builtin_with].
    Floating point arguments, widths and counts that are not integers, and the
    forms of find and count with bounds are not modelled: they give
    [not_modelled]. *)

From Coq Require Import List NArith ZArith Bool.
From Verif Require Import PyStr Ast Lex Parse Eval Builtin.
Import ListNotations.
Open Scope N_scope.

Definition not_modelled {A} : M A := throw (Exn PyOther "not modelled").

(** one text argument; anything else has no such method *)
Definition on_text (k : text -> M node) : node -> M node := fun x =>
  match str_of x with Some t => k t | None => throw (Exn AttributeError "str") end.

(** 'swapcase' 2709, 'capitalize' 2729 (letters of ASCII; simplification as for lower) *)
Definition swap_char (c : char) : char := if (65 <=? c) && (c <=? 90) then c + 32 else upper_char c.
Definition b_swapcase := b_str1 (map swap_char).
Definition b_capitalize := b_str1 (fun t => match t with [] => [] | c :: r => upper_char c :: lower r end).

(** 'strip' 2710, 'lstrip' 2711, 'rstrip' 2712: of white space, or of the given characters *)
Fixpoint drop_while (p : char -> bool) (s : text) : text :=
  match s with [] => [] | c :: r => if p c then drop_while p r else s end.
Definition strip_left (p : char -> bool) (s : text) : text := drop_while p s.
Definition strip_right (p : char -> bool) (s : text) : text := rev (drop_while p (rev s)).
Definition b_strip_with (f : (char -> bool) -> text -> text) (args : list node) : M node :=
  match args with
  | [x] => on_text (fun t => ret (NRaw (f py_isspace t))) x
  | [x; y] => on_text (fun t =>
      match y, str_of y with
      | NNone, _ => ret (NRaw (f py_isspace t))
      | _, Some cs => ret (NRaw (f (fun c => has_char c cs) t))
      | _, None => type_error
      end) x
  | _ => type_error
  end.
Definition b_strip := b_strip_with (fun p s => strip_right p (strip_left p s)).
Definition b_lstrip := b_strip_with strip_left.
Definition b_rstrip := b_strip_with strip_right.

(** s.split( sep ): the pieces between occurrences of [sep] found from the left *)
Fixpoint split_skip (sep : text) (skip : nat) (cur : text) (s : text) : list text :=
  match s with
  | [] => [rev cur]
  | c :: r =>
      match skip with
      | S k => split_skip sep k cur r
      | O => if startswith sep s then rev cur :: split_skip sep (pred (length sep)) [] r
             else split_skip sep O (c :: cur) r
      end
  end.
(** s.split(): the maximal runs of characters that are not white space *)
Fixpoint split_space (cur : text) (s : text) : list text :=
  match s with
  | [] => match cur with [] => [] | _ => [rev cur] end
  | c :: r =>
      if py_isspace c then match cur with [] => split_space [] r | _ => rev cur :: split_space [] r end
      else split_space (c :: cur) r
  end.
(** s.split( sep, n ): at most [n] separators count *)
Fixpoint split_max (sep : text) (n : nat) (skip : nat) (cur : text) (s : text) : list text :=
  match s with
  | [] => [rev cur]
  | c :: r =>
      match skip with
      | S k => split_max sep n k cur r
      | O => match n with
             | O => [rev cur ++ s]
             | S m => if startswith sep s then rev cur :: split_max sep m (pred (length sep)) [] r
                      else split_max sep n O (c :: cur) r
             end
      end
  end.
(** 'split' 2713 *)
Definition b_split (args : list node) : M node :=
  match args with
  | [x] | [x; NNone] => on_text (fun t => ret (NList (map NRaw (split_space [] t)))) x
  | [x; y] => on_text (fun t =>
      match str_of y with
      | Some [] => throw (Exn ValueError "empty separator")
      | Some sep => ret (NList (map NRaw (split_skip sep O [] t)))
      | None => type_error
      end) x
  | [x; y; z] => on_text (fun t =>
      match str_of y, int_of z with
      | Some [], Some _ => throw (Exn ValueError "empty separator")
      | Some sep, Some n => ret (NList (map NRaw (if (n <? 0)%Z then split_skip sep O [] t else split_max sep (Z.to_nat n) O [] t)))
      | _, _ => not_modelled
      end) x
  | _ => type_error
  end.
(** 'join' 2715: every element must be a string *)
Fixpoint texts_of (l : list node) : option (list text) :=
  match l with
  | [] => Some []
  | x :: r => match str_of x, texts_of r with Some t, Some ts => Some (t :: ts) | _, _ => None end
  end.
Definition b_join (args : list node) : M node :=
  let go x sep :=
    match py_iter x with
    | Some l => match texts_of l with Some ts => ret (NRaw (join sep ts)) | None => type_error end
    | None => type_error
    end in
  match args with
  | [x] => go x [c_space]
  | [x; y] => on_text (go x) y
  | _ => type_error
  end.
(** 'replace' 2730: every occurrence, or the first ones up to a limit *)
Definition b_replace (args : list node) : M node :=
  match args with
  | [x; y; z] => on_text (fun t =>
      match str_of y, str_of z with
      | Some [], Some _ => not_modelled
      | Some old, Some new => ret (NRaw (replace old new t))
      | _, _ => type_error
      end) x
  | [x; y; z; w] => on_text (fun t =>
      match str_of y, str_of z, int_of w with
      | Some [], Some _, _ => not_modelled
      | Some old, Some new, Some n => ret (NRaw (if (n <? 0)%Z then replace old new t else join new (split_max old (Z.to_nat n) O [] t)))
      | _, _, _ => type_error
      end) x
  | _ => type_error
  end.
(** 'count' 2718: occurrences without overlap, or equal elements of a list *)
Fixpoint count_skip (p : text) (skip : nat) (s : text) : nat :=
  match s with
  | [] => O
  | _ :: r =>
      match skip with
      | S k => count_skip p k r
      | O => if startswith p s then S (count_skip p (pred (length p)) r) else count_skip p O r
      end
  end.
Definition b_count := arg2 (fun l v =>
  match seq_of l with
  | Some (SeqL l) => ret (NInt (Z.of_nat (length (filter (fun x => py_eq x v) l))))
  | Some (SeqS t) => match str_of v with
                     | Some [] => ret (NInt (Z.of_nat (S (length t))))
                     | Some p => ret (NInt (Z.of_nat (count_skip p O t)))
                     | None => type_error
                     end
  | None => throw (Exn AttributeError "count")
  end).
(** 'find' 2719, 'rfind' 2720 without bounds *)
Definition rfind_sub (p s : text) : option nat :=
  match find_sub (rev p) (rev s) with
  | Some i => Some (length s - length p - i)%nat
  | None => None
  end.
Definition b_find_with (f : text -> text -> option nat) := arg2 (fun x y =>
  on_text (fun t => match str_of y with Some p => ret (opt_index (f p t)) | None => type_error end) x).
Definition b_find := b_find_with find_sub.
Definition b_rfind := b_find_with rfind_sub.
(** 'ljust' 2724, 'rjust' 2725: the fill character is a space unless given *)
Definition b_just (f : text -> text -> text) (args : list node) : M node :=
  let go x w fill :=
    on_text (fun t => match int_of w with
                      | Some w => ret (NRaw (f (repeat fill (Z.to_nat w - length t)) t))
                      | None => type_error
                      end) x in
  match args with
  | [x; w] => go x w c_space
  | [x; w; y] => match str_of y with Some [c] => go x w c | _ => type_error end
  | _ => type_error
  end.
Definition b_ljust := b_just (fun pad t => t ++ pad).
Definition b_rjust := b_just (fun pad t => pad ++ t).
(** 'center' 2726: with an odd number of fill characters the left side gets one
    more if the width is odd, and one less if it is even (CPython) *)
Definition center_left (w n : nat) : nat :=
  let m := (w - n)%nat in (m / 2 + (if Nat.odd m && Nat.odd w then 1 else 0))%nat.
Definition b_center (args : list node) : M node :=
  let go x w fill :=
    on_text (fun t => match int_of w with
                      | Some w => let k := center_left (Z.to_nat w) (length t) in
                                  ret (NRaw (repeat fill k ++ t ++ repeat fill (Z.to_nat w - length t - k)))
                      | None => type_error
                      end) x in
  match args with
  | [x; w] => go x w c_space
  | [x; w; y] => match str_of y with Some [c] => go x w c | _ => type_error end
  | _ => type_error
  end.
(** 'expandtabs' 2728: a tab becomes blanks up to the next column that is a multiple
    of the tab size; columns count from the last line break *)
Fixpoint expand_tabs (size col : nat) (s : text) : text :=
  match s with
  | [] => []
  | c :: r =>
      if c =? 9 then repeat c_space (size - col mod size)%nat ++ expand_tabs size O r
      else if (c =? 10) || (c =? 13) then c :: expand_tabs size O r
      else c :: expand_tabs size (S col) r
  end.
Definition b_expandtabs (args : list node) : M node :=
  let go x size := on_text (fun t => ret (NRaw (if (size <=? 0)%Z then filter (fun c => negb (c =? 9)) t
                                                else expand_tabs (Z.to_nat size) O t))) x in
  match args with
  | [x] => go x 8%Z
  | [x; y] => match int_of y with Some z => go x z | None => type_error end
  | _ => type_error
  end.
(** 'zfill' 2727 for strings: zeros go between a sign and the rest *)
Definition zfill (t : text) (w : nat) : text :=
  let pad := repeat 48 (w - length t) in
  match t with
  | c :: r => if is_sign c then c :: pad ++ r else pad ++ t
  | [] => pad
  end.
Definition b_zfill := arg2 (fun x w =>
  match str_of x, int_of w with
  | Some t, Some w => ret (NRaw (zfill t (Z.to_nat w)))
  | Some _, None => type_error
  | None, _ => not_modelled
  end).
(** 'atoi' 2722: int( s, base ) for digits behind an optional sign, surrounded by
    white space; the prefixes 0b 0o 0x, underscores, base 0 and bases above 16 are
    not modelled *)
Definition digit_ok (base : Z) (c : char) : bool :=
  (0 <=? digit_val c)%Z && (digit_val c <? base)%Z.
Definition int_base (base : Z) (s : text) : option Z :=
  let unsigned t := match t with [] => None | _ => if forallb (digit_ok base) t then Some (digits_val base 0 t) else None end in
  match strip s with
  | c :: r => if c =? 45 then option_map Z.opp (unsigned r) else if c =? 43 then unsigned r else unsigned (c :: r)
  | [] => None
  end.
Definition b_atoi (args : list node) : M node :=
  let go x base :=
    match str_of x with
    | Some t => if ((2 <=? base) && (base <=? 16))%Z
                then match int_base base t with Some z => ret (NInt z) | None => throw (Exn ValueError "invalid literal for int()") end
                else not_modelled
    | None => type_error
    end in
  match args with
  | [x] => match int_of x with Some z => ret (NInt z) | None => go x 10%Z end
  | [x; y] => match int_of y with Some b => go x b | None => type_error end
  | _ => type_error
  end.

(** 'abs', 'neg', 'pos', 'invert' of operator *)
Definition b_int1 (f : Z -> node) := arg1 (fun x => match int_of x with Some z => ret (f z) | None => not_modelled end).
Definition b_abs := b_int1 (fun z => NInt (Z.abs z)).
Definition b_neg := b_int1 (fun z => NInt (- z)).
Definition b_invert := b_int1 (fun z => NInt (- z - 1)).
(** 'and' 2744, 'or' 2768, 'xor', 'lshift', 'rshift', 'floordiv', 'mod' on integers;
    'mod' on strings is formatting and not modelled *)
Definition b_and := b_int2 (fun a b => NInt (Z.land a b)).
Definition b_or := b_int2 (fun a b => NInt (Z.lor a b)).
Definition b_xor := b_int2 (fun a b => NInt (Z.lxor a b)).
Definition nonneg (b : Z) (v : M node) : M node := if (b <? 0)%Z then throw (Exn ValueError "negative shift count") else v.
Definition nonzero (b : Z) (v : M node) : M node := if (b =? 0)%Z then throw (Exn PyOther "ZeroDivisionError") else v.
Definition b_checked (f : Z -> Z -> M node) := arg2 (fun x y =>
  match int_of x, int_of y with Some a, Some b => f a b | _, _ => not_modelled end).
Definition b_lshift := b_checked (fun a b => nonneg b (ret (NInt (Z.shiftl a b)))).
Definition b_rshift := b_checked (fun a b => nonneg b (ret (NInt (Z.shiftr a b)))).
Definition b_floordiv := b_checked (fun a b => nonzero b (ret (NInt (a / b)))).
Definition b_mod := b_checked (fun a b => nonzero b (ret (NInt (a mod b)))).
(** 'cmp' 2748 on integers and on strings *)
Definition b_cmp := b_order (fun c => NInt (match c with Lt => -1 | Eq => 0 | Gt => 1 end)).
(** 'contains', 'concat', 'getitem' and 'truth' of operator *)
Definition b_contains := arg2 (fun l v =>
  match seq_of l with
  | Some (SeqL l) => ret (NBool (existsb (fun x => py_eq x v) l))
  | Some (SeqS t) => match str_of v with
                     | Some p => ret (NBool (match find_sub p t with Some _ => true | None => false end))
                     | None => type_error
                     end
  | None => type_error
  end).
Definition b_concat := arg2 (fun x y =>
  match seq_of x, seq_of y with
  | Some (SeqL a), Some (SeqL b) => ret (NList (a ++ b))
  | Some (SeqS a), Some (SeqS b) => ret (NRaw (a ++ b))
  | _, _ => type_error
  end).
(** the element at an index, counted from the end if negative *)
Definition item {A} (l : list A) (i : Z) : option A :=
  let k := if (i <? 0)%Z then (i + Z.of_nat (length l))%Z else i in
  if (k <? 0)%Z then None else nth_error l (Z.to_nat k).
Definition b_getitem := arg2 (fun l i =>
  match seq_of l, int_of i with
  | Some (SeqL l), Some i => match item l i with Some x => ret x | None => throw (Exn IndexError "list index out of range") end
  | Some (SeqS t), Some i => match item t i with Some c => ret (NRaw [c]) | None => throw (Exn IndexError "string index out of range") end
  | _, _ => type_error
  end).
Definition b_truth := arg1 (fun x => ret (NBool (truthy x))).
(** 'sum' 2780 over integers *)
Fixpoint sum_ints (acc : Z) (l : list node) : option Z :=
  match l with
  | [] => Some acc
  | x :: r => match int_of x with Some z => sum_ints (acc + z) r | None => None end
  end.
Definition b_sum := arg1 (fun x =>
  match list_of x with
  | Some l => match sum_ints 0 l with Some z => ret (NInt z) | None => not_modelled end
  | None => type_error
  end).
(** 'hex' 2755, 'oct' 2766 *)
Fixpoint hex_digits (n : nat) (base : Z) (z : Z) (acc : text) : text :=
  match n with
  | O => acc
  | S m =>
      let d := Z.to_N (z mod base) in
      let c := if d <? 10 then 48 + d else 87 + d in
      if (z <? base)%Z then c :: acc else hex_digits m base (z / base) (c :: acc)
  end.
Definition in_base (base : Z) (prefix : text) (z : Z) : text :=
  (if (z <? 0)%Z then [45] else []) ++ prefix ++ hex_digits (S (Z.to_nat (Z.log2 (Z.abs z)))) base (Z.abs z) [].
Definition b_hex := b_int1 (fun z => NRaw (in_base 16 (lit "0x") z)).
Definition b_oct := b_int1 (fun z => NRaw (in_base 8 (lit "0o") z)).
(** 'chr' 2747, 'ord' 2769 for one character *)
Definition b_chr := arg1 (fun x =>
  match int_of x with
  | Some z => if ((0 <=? z) && (z <? 1114112))%Z then ret (NRaw [Z.to_N z]) else throw (Exn ValueError "chr() arg not in range")
  | None => type_error
  end).
Definition b_ord := arg1 (fun x =>
  match x, str_of x with
  | _, Some [c] => ret (NInt (Z.of_N c))
  | _, Some _ => type_error
  | NInt z, None => match Z_text z with [c] => ret (NInt (Z.of_N c)) | _ => type_error end
  | _, None => not_modelled
  end).
(** 'isdigit' 2760: str( val ).isdigit(); of the characters up to U+00FF the
    superscripts 2, 3 and 1 are digits too *)
Definition uni_digit (c : char) : bool := is_digit c || (c =? 178) || (c =? 179) || (c =? 185).
Definition b_isdigit := arg1 (fun x =>
  match x, str_of x with
  | _, Some [] => ret (NBool false)
  | _, Some t => ret (NBool (forallb uni_digit t))
  | NInt z, None => ret (NBool (0 <=? z)%Z)
  | _, None => not_modelled
  end).
(** 'str' 2779 of strings and integers *)
Definition b_str := arg1 (fun x =>
  match x, str_of x with
  | _, Some t => ret (NRaw t)
  | NInt z, None => ret (NRaw (Z_text z))
  | _, None => not_modelled
  end).
(** 'unq' 2784 (_unq 841-860), 'strlen' 2780, 'print' 2768: what is printed goes to
    the standard output, which is not modelled, and the value is None *)
Definition b_unq (cx : pctx) := arg1 (fun x =>
  match x, str_of x with
  | _, Some t => ret (NRaw (unq cx t))
  | NInt z, None => ret (NRaw (Z_text z))
  | _, None => not_modelled
  end).
Definition b_strlen (cx : pctx) := arg1 (fun x =>
  match x with
  | NStr s => ret (NInt (Z.of_nat (length (unq cx (s_txt s)))))
  | NInt z => ret (NInt (Z.of_nat (length (Z_text z))))
  | _ => match str_of x with Some t => ret (NInt (Z.of_nat (length t))) | None => not_modelled end
  end).
Definition b_print (args : list node) : M node := ret NNone.
(** 'q' 2770, 'qs' 2771: unicode_escape escapes the backslash, the controls and
    everything above 126; quotes stay as they are *)
Definition hex2 (n : N) : text := let d k := if k <? 10 then 48 + k else 87 + k in [d (n / 16); d (n mod 16)].
Definition hex4 (n : N) : text := hex2 (n / 256) ++ hex2 (n mod 256).
Definition escape_char (c : char) : text :=
  if c =? 92 then lit "\\" else if c =? 10 then lit "\n" else if c =? 13 then lit "\r" else if c =? 9 then lit "\t"
  else if (32 <=? c) && (c <? 127) then [c]
  else if c <? 256 then lit "\x" ++ hex2 c else if c <? 65536 then lit "\u" ++ hex4 c
  else lit "\U" ++ hex4 (c / 65536) ++ hex4 (c mod 65536).
Definition b_quoted (q : char) := arg1 (fun x =>
  match x, str_of x with
  | _, Some t => ret (NRaw (q :: flat_map escape_char t ++ [q]))
  | NInt z, None => ret (NRaw (q :: Z_text z ++ [q]))
  | _, None => not_modelled
  end).
(** '__MODULE_NAME__' 2737 and yushell.module 2664 *)
Definition module_name (input : option text) : text :=
  match input with
  | Some p => upper (replace [45] [95] (fst (splitext (basename p))))
  | None => lit "UNTITLED"
  end.
Definition b_module (input : option text) (args : list node) : M node :=
  match args with [] => ret (NRaw (module_name input)) | _ => type_error end.

(** '__TITLE__' 2740-2744 with the templates 2688-2693: [python] is
    yushell.output_python, [app] and [version] are the constants of yulic.py,
    [now] is the formatted clock *)
Definition title_text (python : bool) (app version input now output : text) (dt : bool) : text :=
  let stamp := if dt then lit "at " ++ now else [] in
  if python
  then lit "#  " ++ output ++ lit " was generated by " ++ app ++ lit " " ++ version ++ [10]
       ++ lit "#  out of " ++ input ++ lit " " ++ stamp
  else lit "/*  " ++ output ++ lit " was generated by " ++ app ++ lit " " ++ version ++ [10]
       ++ lit "    out of " ++ input ++ lit " " ++ stamp ++ [10] ++ lit " */".
Definition b_title (python : bool) (app version input now : text) (args : list node) : M node :=
  bind get_st (fun st =>
    let out dt := ret (NPlain (raw (title_text python app version input now (y_output st) dt)) IndNone false) in
    match args with
    | [] => out true
    | [x] => out (truthy x)
    | _ => type_error
    end).

Definition more (cx : pctx) (input : option text) : list (text * (list node -> M node)) :=
  [ (lit "swapcase", b_swapcase); (lit "capitalize", b_capitalize);
    (lit "strip", b_strip); (lit "lstrip", b_lstrip); (lit "rstrip", b_rstrip);
    (lit "split", b_split); (lit "join", b_join); (lit "replace", b_replace);
    (lit "count", b_count); (lit "find", b_find); (lit "rfind", b_rfind);
    (lit "ljust", b_ljust); (lit "rjust", b_rjust); (lit "zfill", b_zfill);
    (lit "center", b_center); (lit "expandtabs", b_expandtabs); (lit "atoi", b_atoi);
    (lit "abs", b_abs); (lit "neg", b_neg); (lit "invert", b_invert);
    (lit "and", b_and); (lit "or", b_or); (lit "xor", b_xor);
    (lit "lshift", b_lshift); (lit "rshift", b_rshift); (lit "floordiv", b_floordiv); (lit "mod", b_mod);
    (lit "cmp", b_cmp); (lit "sum", b_sum); (lit "hex", b_hex); (lit "oct", b_oct);
    (lit "chr", b_chr); (lit "ord", b_ord); (lit "isdigit", b_isdigit); (lit "str", b_str);
    (lit "unq", b_unq cx); (lit "strlen", b_strlen cx); (lit "print", b_print);
    (lit "q", b_quoted 34); (lit "qs", b_quoted 39); (lit "__MODULE_NAME__", b_module input);
    (lit "contains", b_contains); (lit "concat", b_concat); (lit "getitem", b_getitem); (lit "truth", b_truth);
    (lit "pos", b_int1 NInt) ].
(** the part [rest] of [builtin_with]: these, then an oracle *)
Definition more_builtins (cx : pctx) (input : option text) (other : text -> option bval) (name : text) : option bval :=
  match dict_get name (more cx input) with Some f => Some (BFun f) | None => other name end.
