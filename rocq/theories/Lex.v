(** * Lexical level of the parser

    Models /repo/pp/yugen.py: terminals 755-829, ps_atom .. ps_gap 1989-2043,
    ps_quote 2046-2089, ps_string_python 2092-2153, ps_comment 2159-2180,
    ps_number 2182-2207, ps_plain 1510-1557, ps_remark_* 1408-1464,
    ps_variable 1571-1603.  None of these touches the shell state. *)

From Coq Require Import List NArith ZArith Bool.
From Verif Require Import PyStr Ast.
Import ListNotations.
Open Scope N_scope.

(** ** Terminal symbols; yugen.py 755-829 *)

Definition ps_EOL (c : char) : bool := (c =? 10) || (c =? 13).                 (* 757 *)
Definition ps_SPACE (c : char) : bool := (c =? 32) || (c =? 9).                (* 759 *)
Definition ps_LETTER (c : char) : bool :=                                      (* 761 *)
  ((97 <=? c) && (c <=? 122)) || ((65 <=? c) && (c <=? 90)) || (c =? 95).
Definition ps_FIGURE (c : char) : bool := ((48 <=? c) && (c <=? 57)) || (c =? 45). (* 763 *)
Definition ps_ANY (c : char) : bool :=                                         (* 765 *)
  (c =? 10) || (c =? 13) || (c =? 9) || ((32 <=? c) && (c <=? 255)).

Definition ps_CODE := lit "($code".       (* 767 *)
Definition ps_DUALCOMMA := lit ",,".      (* 770 *)
Definition ps_DUALSEMI := lit ";;".       (* 773 *)
Definition ps_INFIX := lit "(${}".        (* 776 *)
Definition ps_SET := lit "($set".         (* 779 *)
Definition ps_SET_T := lit "\set".        (* 782 *)
Definition ps_LET := lit "($let".         (* 785 *)
Definition ps_LET_T := lit "\let".        (* 788 *)
Definition ps_IMPORT := lit "($import".   (* 791 *)
Definition ps_IMPORT_T := lit "\import".  (* 794 *)
Definition ps_QUOTE := lit "($quote".     (* 797 *)
Definition ps_BQUOTE := lit "(`".         (* 800 *)
Definition ps_MACRO := lit "($macro".     (* 803 *)
Definition ps_COMMENT := lit "($!".       (* 806 *)
Definition ps_EMIT := lit "($emit".       (* 809 *)
Definition ps_EMIT_T := lit "\emit".      (* 812 *)

Definition ch_open : char := 40.
Definition ch_close : char := 41.
Definition ch_sq_open : char := 91.  (* [ *)
Definition ch_sq_close : char := 93. (* ] *)
Definition ch_lbrace : char := 123.
Definition ch_rbrace : char := 125.
Definition ch_bslash : char := 92.
Definition ch_dollar : char := 36.
Definition ch_star : char := 42.     (* the embed mark *)
Definition ch_amp : char := 38.
Definition ch_colon : char := 58.
Definition ch_dotc : char := 46.
Definition ch_quest : char := 63.
Definition ch_bar : char := 124.
Definition ch_hash : char := 35.
Definition ch_dquote : char := 34.
Definition ch_squote : char := 39.

(** Length of the longest prefix of characters satisfying [p]: the loops
    [while _ord( sou, i ) in S: i += 1] ([_ord] is None at the end). *)
Fixpoint span_len (p : char -> bool) (s : text) : nat :=
  match s with
  | c :: r => if p c then S (span_len p r) else O
  | [] => O
  end.

(** [sou[:i] or None] *)
Definition or_none (s : source) : option source :=
  match s_txt s with [] => None | _ => Some s end.

(** ps_atom; yugen.py 1989-2002 *)
Definition ps_atom (sou : source) : source * option source :=
  match s_txt sou with
  | c :: r =>
      if ps_LETTER c then
        let i := S (span_len (fun c => ps_LETTER c || ps_FIGURE c) r) in
        (sfrom i sou, Some (sto i sou))
      else (sfrom 0 sou, None)
  | [] => (sfrom 0 sou, None)
  end.

(** ps_space; yugen.py 2005-2016 *)
Definition ps_space (sou : source) : source * option source :=
  let i := span_len ps_SPACE (s_txt sou) in
  (sfrom i sou, or_none (sto i sou)).

(** ps_eol; yugen.py 2019-2029 *)
Definition ps_eol (sou : source) : source * option source :=
  match s_txt sou with
  | c :: _ => if ps_EOL c then (sfrom 1 sou, Some (sto 1 sou)) else (sou, None)
  | [] => (sou, None)
  end.

(** ps_gap; yugen.py 2032-2043 *)
Definition ps_gap (sou : source) : source * option source :=
  let i := span_len (fun c => ps_EOL c || ps_SPACE c) (s_txt sou) in
  (sfrom i sou, or_none (sto i sou)).
(** The second component of [ps_gap] is never used by the callers. *)
Definition gap (sou : source) : source := fst (ps_gap sou).

(** ** ps_plain; yugen.py 1510-1557
    The generator is a state; [plain_next] is [next( plain )].  After a step the
    yielded tuple is (pg_rest, pg_leg, pg_sq, pg_pth). *)
Record pgen := PG {
  pg_sou : source; pg_i : nat; pg_sq : nat; pg_pth : nat; pg_ind : indent
}.
Definition pg_rest (g : pgen) : source := sfrom (pg_i g) (pg_sou g).
Definition pg_leg (g : pgen) : node := NPlain (sto (pg_i g) (pg_sou g)) (pg_ind g) false.

Definition plain_start (sou : source) (sq p : nat) (ind : indent) : pgen := PG sou 0 sq p ind.

Definition plain_next (g : pgen) : res pgen :=
  match nth_error (s_txt (pg_sou g)) (pg_i g) with
  | None => Err (Exn EOFError "ps_plain: unexpected EOF:")
  | Some c =>
      if negb (ps_ANY c) then Err (Exn SyntaxError "ps_plain: forbidden character")
      else
        let sq := if c =? ch_sq_open then S (pg_sq g)
                  else if c =? ch_sq_close then pred (pg_sq g) else pg_sq g in
        let p := if c =? ch_open then S (pg_pth g)
                 else if c =? ch_close then pred (pg_pth g) else pg_pth g in
        let ind := if ps_EOL c then IndStr []
                   else if ps_SPACE c then
                     match pg_ind g with
                     | IndStr t => IndStr (t ++ [c])
                     | i => i
                     end
                   else IndFalse in
        Ok (PG (pg_sou g) (S (pg_i g)) sq p ind)
  end.

(** The loop shared by ps_macro (1258-1264), ps_quote (2081-2087) and
    ps_comment (2172-2178): take characters until the next one is a closing
    parenthesis at depth 0.  The budget [n] is the length of the source; running
    out of it is impossible (see PlainFacts). *)
Fixpoint plain_until_close (n : nat) (g : pgen) : res (source * pgen) :=
  match n with
  | O => Fuel
  | S m =>
      match plain_next g with
      | Ok g' => if sis ch_close (pg_rest g') && Nat.eqb (pg_pth g') 0
                 then Ok (sfrom 1 (pg_rest g'), g')
                 else plain_until_close m g'
      | Err e => Err e
      | Fuel => Fuel
      end
  end.

Definition plain_body (sou : source) : res (source * pgen) :=
  plain_until_close (S (length (s_txt sou))) (plain_start sou 0 0 IndNone).

(** ps_comment; yugen.py 2159-2180 *)
Definition ps_comment (sou : source) : res (source * option node) :=
  if sstarts ps_COMMENT sou then
    let sou := sfrom 3 sou in
    if sis ch_close sou then Ok (sfrom 1 sou, Some NComment)
    else match plain_body sou with
         | Ok (rest, _) => Ok (rest, Some NComment)
         | Err e => Err e
         | Fuel => Fuel
         end
  else Ok (sou, None).

(** re_STR, re_CHR; yugen.py 823-825: a quote, then any number of
    backslash-dot pairs or characters other than backslash and that quote, then
    the quote.  The dot does not match a line feed.  The two alternatives start with different characters and
    neither matches the quote, so the match is unique; result: its length. *)
Fixpoint c_literal_tail (q : char) (s : text) : option nat :=
  match s with
  | [] => None
  | c :: r =>
      if c =? q then Some 1%nat
      else if c =? ch_bslash then
        match r with
        | d :: r' => if d =? 10 then None
                     else option_map (fun k => S (S k)) (c_literal_tail q r')
        | [] => None
        end
      else option_map S (c_literal_tail q r)
  end.
Definition c_literal (q : char) (s : text) : option nat :=
  match s with
  | c :: r => if c =? q then option_map S (c_literal_tail q r) else None
  | [] => None
  end.

(** ** Python string literals; yugen.py 2092-2153, regular expressions 3758-3779 *)

(** _getline: length of the first line including its line feed; yugen.py 2092-2096 *)
Fixpoint getline_len (s : text) : nat :=
  match s with
  | [] => O
  | c :: r => if c =? 10 then 1%nat else S (getline_len r)
  end.

(** Rest of re_STR_HEAD after a single opening quote: characters other than line
    feed, quote and backslash, or backslash pairs, up to the quote or to a
    backslash followed by a line feed; result: length and whether it ends in a continuation. *)
Fixpoint py_head_tail (q : char) (s : text) : option (nat * bool) :=
  match s with
  | [] => None
  | c :: r =>
      if c =? q then Some (1%nat, false)
      else if c =? 10 then None
      else if c =? ch_bslash then
        match r with
        | d :: r' => if d =? 10 then Some (2%nat, true)
                     else option_map (fun kb => (S (S (fst kb)), snd kb)) (py_head_tail q r')
        | [] => None
        end
      else option_map (fun kb => (S (fst kb), snd kb)) (py_head_tail q r)
  end.

(** Optional prefix u or U, then r or R, *)
Definition py_prefix_len (s : text) : nat :=
  let i := match s with
           | c :: _ => if (c =? 117) || (c =? 85) then 1%nat else O
           | [] => O end in
  match skipn i s with
  | c :: _ => if (c =? 114) || (c =? 82) then S i else i
  | [] => i
  end.

Inductive pyhead := PHTriple (q : char) (len : nat) | PHSingle (q : char) (len : nat) (cont : bool).

Definition py_head_at (i : nat) (ln : text) : option pyhead :=
  let s := skipn i ln in
  match s with
  | a :: b :: c :: _ =>
      if (((a =? ch_squote) && (b =? ch_squote) && (c =? ch_squote))
          || ((a =? ch_dquote) && (b =? ch_dquote) && (c =? ch_dquote)))
      then Some (PHTriple a (i + 3))
      else if (a =? ch_squote) || (a =? ch_dquote)
      then option_map (fun kb => PHSingle a (S (i + fst kb)) (snd kb)) (py_head_tail a (skipn 1 s))
      else None
  | a :: _ =>
      if (a =? ch_squote) || (a =? ch_dquote)
      then option_map (fun kb => PHSingle a (S (i + fst kb)) (snd kb)) (py_head_tail a (skipn 1 s))
      else None
  | [] => None
  end.
(** re_STR_HEAD; the quote must follow the longest prefix, for the prefix letters
    are not quotes, so no backtracking can succeed. *)
Definition py_head (ln : text) : option pyhead := py_head_at (py_prefix_len ln) ln.

(** re_STR_1x1_TAIL, re_STR_1x2_TAIL: as re_STR without the opening quote *)
Definition py_tail1 (q : char) (s : text) : option nat := c_literal_tail q s.

(** re_STR_3x1_TAIL, re_STR_3x2_TAIL: characters, backslash pairs and quotes not
    followed by two more, up to three quotes *)
Fixpoint py_tail3 (q : char) (s : text) : option nat :=
  match s with
  | [] => None
  | c :: r =>
      if c =? q then
        if startswith [q; q] r then Some 3%nat else option_map S (py_tail3 q r)
      else if c =? ch_bslash then
        match r with
        | d :: r' => if d =? 10 then None
                     else option_map (fun k => S (S k)) (py_tail3 q r')
        | [] => None
        end
      else option_map S (py_tail3 q r)
  end.

(** the line ends in a backslash and a line feed; yugen.py 2148 *)
Definition is_continued (ln : text) : bool :=
  teqb (skipn (length ln - 2) ln) [ch_bslash; 10].

(** The loop over the following lines; yugen.py 2134-2153.  [p] is the number of
    characters before the line being examined. *)
Fixpoint py_tail_lines (n : nat) (q : char) (single : bool) (p : nat) (s : text) : res nat :=
  match n with
  | O => Fuel
  | S m =>
      let ln := firstn (getline_len s) s in
      match ln with
      | [] => Err (Exn EOFError "ps_string_python: unexpected EOF into multi-line string:")
      | _ =>
          match (if single then py_tail1 q ln else py_tail3 q ln) with
          | Some k => Ok (p + k)%nat
          | None =>
              if single && negb (is_continued ln)
              then Err (Exn SyntaxError "ps_string_python: multi-line string continuation expected")
              else py_tail_lines m q single (p + length ln) (skipn (length ln) s)
          end
      end
  end.

(** ps_string_python; yugen.py 2099-2153: length of the literal, if any *)
Definition py_string_len (s : text) : res (option nat) :=
  let ln := firstn (getline_len s) s in
  match py_head ln with
  | None => Ok None
  | Some (PHSingle q len false) => Ok (Some len)
  | Some (PHSingle q len true) =>
      (* 2128: the tail expression is chosen by an apostrophe anywhere in the head *)
      let q := if has_char ch_squote (firstn len ln) then ch_squote else ch_dquote in
      match py_tail_lines (S (length s)) q true (length ln) (skipn (length ln) s) with
      | Ok k => Ok (Some k) | Err e => Err e | Fuel => Fuel
      end
  | Some (PHTriple q len) =>
      match py_tail3 q (skipn len ln) with
      | Some k => Ok (Some (len + k)%nat)
      | None =>
          match py_tail_lines (S (length s)) q false (length ln) (skipn (length ln) s) with
          | Ok k => Ok (Some k) | Err e => Err e | Fuel => Fuel
          end
      end
  end.

Definition ps_string_python (sou : source) : res (source * option node) :=
  match py_string_len (s_txt sou) with
  | Ok None => Ok (sou, None)
  | Ok (Some p) => Ok (sfrom p sou, Some (NStr (sto p sou)))
  | Err e => Err e
  | Fuel => Fuel
  end.

(** The part of ps_quote that reads the backquote and quote forms; yugen.py 2073-2089 *)
Definition ps_backquote (sou : source) : res (source * option node) :=
  let pos := if sstarts ps_BQUOTE sou then 2%nat else if sstarts ps_QUOTE sou then 7%nat else O in
  match pos with
  | O => Ok (sou, None)
  | _ =>
      let sou := sfrom pos sou in
      if sis ch_close sou then Ok (sfrom 1 sou, Some (NStr (raw [])))
      else match plain_body sou with
           | Ok (rest, g) => Ok (rest, Some (NStr (sto (pg_i g) (pg_sou g))))
           | Err e => Err e
           | Fuel => Fuel
           end
  end.

(** ps_quote; yugen.py 2046-2089.  [mch.group( 0 )] is a plain [str]: C literals
    carry no location. *)
Definition ps_quote (python : bool) (sou : source) : res (source * option node) :=
  if python then
    match ps_string_python sou with
    | Ok (s, Some leg) => Ok (s, Some leg)
    | Ok (s, None) => ps_backquote s
    | Err e => Err e
    | Fuel => Fuel
    end
  else
    match c_literal ch_dquote (s_txt sou) with
    | Some k => Ok (sfrom k sou, Some (NStr (raw (firstn k (s_txt sou)))))
    | None =>
        match c_literal ch_squote (s_txt sou) with
        | Some k => Ok (sfrom k sou, Some (NStr (raw (firstn k (s_txt sou)))))
        | None => ps_backquote sou
        end
    end.

(** ** Numbers; yugen.py 811-821, 2182-2207
    (simplification: [\d] is matched by the ASCII digits only) *)

Definition is_hex (c : char) : bool :=
  is_digit c || ((97 <=? c) && (c <=? 102)) || ((65 <=? c) && (c <=? 70)).
Definition is_oct (c : char) : bool := (48 <=? c) && (c <=? 55).
Definition is_bin (c : char) : bool := (c =? 48) || (c =? 49).
Definition is_l (c : char) : bool := (c =? 108) || (c =? 76).
Definition is_sign (c : char) : bool := (c =? 43) || (c =? 45).
Definition opt_len (p : char -> bool) (s : text) : nat :=
  match s with c :: _ => if p c then 1%nat else O | [] => O end.

(** Body of re_INT without sign and spaces, before the final [lL]?: alternatives
    in order. *)
Definition int_body_len (s : text) : option nat :=
  match s with
  | c :: r =>
      if c =? 48 then
        let pref (up lo : char) (p : char -> bool) :=
          match r with
          | d :: r' => if (d =? up) || (d =? lo) then
                         match span_len p r' with O => None | k => Some (S (S k)) end
                       else None
          | [] => None
          end in
        match pref 88 120 is_hex with
        | Some k => Some (k + opt_len is_l (skipn k s))%nat
        | None =>
            match pref 66 98 is_bin with
            | Some k => Some k
            | None =>
                match pref 79 111 is_oct with
                | Some k => Some k
                | None => Some (S (span_len is_oct r))
                end
            end
        end
      else if is_digit c then Some (S (span_len is_digit r))
      else None
  | [] => None
  end.

Definition sign_space_len (sp : char -> bool) (s : text) : nat :=
  let i := opt_len is_sign s in (i + span_len sp (skipn i s))%nat.

(** re_INT.match: length of the match *)
Definition re_INT (s : text) : option nat :=
  let i := sign_space_len ps_SPACE s in
  match int_body_len (skipn i s) with
  | None => None
  | Some k => let j := (i + k)%nat in Some (j + opt_len is_l (skipn j s))%nat
  end.

(** re_FLOAT.match: sign, blanks, digits, dot, digits, optional exponent *)
Definition re_FLOAT (s : text) : option nat :=
  let i := sign_space_len (N.eqb 32) s in
  let s1 := skipn i s in
  match span_len is_digit s1 with
  | O => None
  | a =>
      match skipn a s1 with
      | d :: r =>
          if d =? 46 then
            match span_len is_digit r with
            | O => None
            | b =>
                let j := (i + a + 1 + b)%nat in
                match skipn j s with
                | e :: r2 =>
                    if (e =? 101) || (e =? 69) then
                      let sg := opt_len is_sign r2 in
                      match span_len is_digit (skipn sg r2) with
                      | O => Some j
                      | x => Some (j + 1 + sg + x)%nat
                      end
                    else Some j
                | [] => Some j
                end
            end
          else None
      | [] => None
      end
  end.

(** Digit values *)
Definition digit_val (c : char) : Z :=
  if is_digit c then Z.of_N (c - 48)
  else if (97 <=? c) && (c <=? 102) then Z.of_N (c - 87)
  else if (65 <=? c) && (c <=? 70) then Z.of_N (c - 55)
  else (-1)%Z.
Fixpoint digits_val (base : Z) (acc : Z) (s : text) : Z :=
  match s with [] => acc | c :: r => digits_val base (acc * base + digit_val c) r end.

(** Python 3 [int(s, 0)] (CPython Objects/longobject.c, PyLong_FromString with
    base 0): white space is stripped around the number; an optional sign must be
    followed immediately by the digits; 0x / 0o / 0b select the base; any other
    number starting with 0 must be zero.  [None] is ValueError.  (Underscores
    cannot reach it.) *)
Definition py_int0_unsigned (s : text) : option Z :=
  match s with
  | [] => None
  | c :: r =>
      if c =? 48 then
        match r with
        | d :: r' =>
            if (d =? 120) || (d =? 88) then
              if forallb is_hex r' && negb (Nat.eqb (length r') 0) then Some (digits_val 16 0 r') else None
            else if (d =? 111) || (d =? 79) then
              if forallb is_oct r' && negb (Nat.eqb (length r') 0) then Some (digits_val 8 0 r') else None
            else if (d =? 98) || (d =? 66) then
              if forallb is_bin r' && negb (Nat.eqb (length r') 0) then Some (digits_val 2 0 r') else None
            else if forallb (N.eqb 48) r then Some 0%Z else None
        | [] => Some 0%Z
        end
      else if forallb is_digit s then Some (digits_val 10 0 s) else None
  end.
Definition py_int0 (s : text) : option Z :=
  let s := strip s in
  match s with
  | c :: r => if c =? 45 then option_map Z.opp (py_int0_unsigned r)
              else if c =? 43 then py_int0_unsigned r
              else py_int0_unsigned s
  | [] => None
  end.

(** Python [float(s)] raises ValueError exactly when white space follows the sign,
    for the texts matched by re_FLOAT. *)
Definition py_float_ok (s : text) : bool :=
  match strip s with
  | c :: d :: _ => negb (is_sign c && py_isspace d)
  | _ => true
  end.

(** ps_number; yugen.py 2182-2207 *)
Definition ps_number (sou : source) : res (source * option node) :=
  match re_FLOAT (s_txt sou) with
  | Some k =>
      let leg := firstn k (s_txt sou) in
      if py_float_ok leg then Ok (sfrom k sou, Some (NFloat leg))
      else Err (Exn ValueError "could not convert string to float")
  | None =>
      match re_INT (s_txt sou) with
      | Some k =>
          let leg := firstn k (s_txt sou) in
          let leg := match last leg 0 with
                     | c => if is_l c then removelast leg else leg end in
          match py_int0 leg with
          | Some z => Ok (sfrom k sou, Some (NInt z))
          | None => Err (Exn ValueError "invalid literal for int() with base 0")
          end
      | None => Ok (sou, None)
      end
  end.

(** ps_remark_c; yugen.py 1408-1442 *)
Fixpoint find_close_remark (s : text) : option nat :=
  match s with
  | [] => None
  | c :: r => if startswith (lit "*/") s then Some O else option_map S (find_close_remark r)
  end.
Definition ps_remark_c (sou : source) : res (source * option node) :=
  if sstarts (lit "//") sou then
    let i := (2 + span_len (fun c => negb (ps_EOL c)) (skipn 2 (s_txt sou)))%nat in
    Ok (sfrom i sou, Some (NRemark (sto i sou)))
  else if sstarts (lit "/*") sou then
    match find_close_remark (skipn 2 (s_txt sou)) with
    | Some k => let i := (2 + k + 2)%nat in Ok (sfrom i sou, Some (NRemark (sto i sou)))
    | None => Err (Exn SyntaxError "ps_remark_c: unclosed comment")
    end
  else Ok (sou, None).

(** ps_remark_python; yugen.py 1445-1464 *)
Definition ps_remark_python (sou : source) : source * option source :=
  if sis ch_hash sou then
    let i := (1 + span_len (fun c => negb (ps_EOL c)) (skipn 1 (s_txt sou)))%nat in
    (sfrom i sou, Some (sto i sou))
  else (sou, None).

(** ps_variable; yugen.py 1571-1603.  Loop over the double colons with the source
    length as budget. *)
Fixpoint variable_loop (n : nat) (reg : list source) (leg : source) (sou : source)
  : res (source * option (region * source)) :=
  match n with
  | O => Fuel
  | S m =>
      if sstarts (lit "::") sou then
        match ps_atom (sfrom 2 sou) with
        | (sou', Some leg') => variable_loop m (reg ++ [leg]) leg' sou'
        | (_, None) => Err (Exn SyntaxError "ps_variable: atom expected")
        end
      else Ok (sou, Some (RList reg, leg))
  end.
Definition ps_variable (sou : source) : res (source * option (region * source)) :=
  if sis ch_amp sou then
    match ps_atom (sfrom 1 sou) with
    | (sou', Some leg) => Ok (sou', Some (RLate, leg))
    | (_, None) => Err (Exn SyntaxError "ps_variable: late-bound expected")
    end
  else
    match ps_atom sou with
    | (sou', None) => Ok (sou', None)
    | (sou', Some leg) => variable_loop (S (length (s_txt sou'))) [] leg sou'
    end.
