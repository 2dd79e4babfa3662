(** * The parser

    Models /repo/pp/yugen.py 837-1507, 1560-1986 (grammar rules that recurse),
    with the lexical rules of Lex.v.

    Open recursion: every [ps_*] function receives [self], the pair of recursive
    entry points [k_form] (ps_form) and [k_next] ([next] of the ps_text
    generator).  [knot n] closes the recursion with budget [n]. *)

From Coq Require Import List NArith ZArith Bool.
From Verif Require Import PyStr Ast Lex.
Import ListNotations.
Open Scope N_scope.
Open Scope monad_scope.

(** [yushell.pp_skip_comments] after AUTO is resolved; yuconfig.py 22-27, yugen.py 2678-2681 *)
Inductive skip_mode := SkipNone | SkipC | SkipPython.

(** What the parser reads from [yushell] and from the outside world. *)
Record pctx := Ctx {
  c_python : bool;                      (* yushell.output_python *)
  c_skip : skip_mode;                   (* yushell.pp_skip_comments *)
  c_main : text;                        (* yushell.input_file *)
  c_dirs : list text;                   (* yushell.directory *)
  c_read : text -> option text;         (* content of a file; None: not a file *)
  c_unq : text -> text;                 (* _unq on strings with escapes (oracle) *)
  c_pyimport : text -> res unit;        (* imp.load_source + builtin.update (oracle) *)
  c_evalimport : text -> res text;      (* str( eval( code )) of _import_eval (oracle) *)
  c_str : node -> text                  (* str() of a compound node (oracle) *)
}.

(** _unify_eol; yugen.py 863-864 *)
Definition unify_eol (st : text) : text :=
  replace [c_cr] [c_lf] (replace [c_cr; c_lf] [c_lf] st).

(** Escape sequences of Python's string literals and of unicode_escape_decode
    (used by _unq; yugen.py 841-860).  [LError]: Python reports an error;
    [LUnknown]: not modelled. *)
Inductive unescaped := LText (t : text) | LError | LUnknown.
Definition lcons (c : char) (r : unescaped) : unescaped :=
  match r with LText t => LText (c :: t) | _ => r end.
Definition simple_escape (e : char) : option char :=
  if e =? 92 then Some 92 else if e =? 39 then Some 39 else if e =? 34 then Some 34
  else if e =? 97 then Some 7 else if e =? 98 then Some 8 else if e =? 102 then Some 12
  else if e =? 110 then Some 10 else if e =? 114 then Some 13 else if e =? 116 then Some 9
  else if e =? 118 then Some 11 else None.
Definition hex_char (ds : text) : option char :=
  if forallb is_hex ds then
    let v := Z.to_N (digits_val 16 0 ds) in if v <? 1114112 then Some v else None
  else None.
Definition oct_char (ds : text) : char := Z.to_N (digits_val 8 0 ds).
(** [stop]: characters after which the text is not modelled *)
Fixpoint unescape (stop : char -> bool) (s : text) : unescaped :=
  match s with
  | [] => LText []
  | c :: r =>
      if stop c then LUnknown
      else if negb (c =? 92) then lcons c (unescape stop r)
      else match r with
           | [] => LError
           | e :: r1 =>
               if e =? 10 then unescape stop r1
               else match simple_escape e with
                    | Some d => lcons d (unescape stop r1)
                    | None =>
                        if stop e then LUnknown
                        else if e =? 120 then
                          match r1 with
                          | a :: b :: r2 =>
                              match hex_char [a; b] with Some d => lcons d (unescape stop r2) | None => LError end
                          | _ => LError
                          end
                        else if e =? 117 then
                          match r1 with
                          | a :: b :: a1 :: b1 :: r2 =>
                              match hex_char [a; b; a1; b1] with Some d => lcons d (unescape stop r2) | None => LError end
                          | _ => LError
                          end
                        else if e =? 85 then
                          match r1 with
                          | a :: b :: a1 :: b1 :: a2 :: b2 :: a3 :: b3 :: r2 =>
                              match hex_char [a; b; a1; b1; a2; b2; a3; b3] with
                              | Some d => lcons d (unescape stop r2)
                              | None => LError
                              end
                          | _ => LError
                          end
                        else if e =? 78 then LUnknown
                        else if is_oct e then
                          match r1 with
                          | a :: r2 =>
                              if is_oct a then
                                match r2 with
                                | b :: r3 =>
                                    if is_oct b then lcons (oct_char [e; a; b]) (unescape stop r3)
                                    else lcons (oct_char [e; a]) (unescape stop r2)
                                | [] => LText [oct_char [e; a]]
                                end
                              else lcons (oct_char [e]) (unescape stop r1)
                          | [] => LText [oct_char [e]]
                          end
                        else lcons 92 (lcons e (unescape stop r1))
                    end
           end
  end.
(** _unq; yugen.py 841-860.  A text that starts with a quote is a Python literal
    (literal_eval); modelled if it is one string from quote to quote, in one line
    and without surrogates.  Any other text is decoded by unicode_escape_decode;
    modelled for ASCII.  If Python reports an error the text stays as it is.
    Everything else is the oracle. *)
Definition quote_stop (q c : char) : bool :=
  (c =? q) || (c =? 10) || (c =? 13) || (c =? 0) || ((55296 <=? c) && (c <=? 57343)).
Definition unq_simple (st : text) : option text :=
  let known r := match r with LText t => Some t | LError => Some st | LUnknown => None end in
  match st with
  | q :: r =>
      if (q =? ch_dquote) || (q =? ch_squote) then
        if negb (Nat.eqb (length r) 0) && (last r 0 =? q)
        then known (unescape (quote_stop q) (removelast r)) else None
      else known (unescape (fun c => 128 <=? c) st)
  | [] => Some []
  end.
Definition unq (cx : pctx) (st : text) : text :=
  match unq_simple st with Some t => t | None => c_unq cx st end.

Section Rules.
Variable cx : pctx.
(** [yuparse] of the source registered under a key (used by ps_import) *)
Variable imp : text -> M (list node).

(** State of the ps_text generator; yugen.py 979-1063.  After [k_next] the
    yielded pair is (tg_sou, TEXT( tg_ast, tg_sq, tg_pth )). *)
Record tgen := TG {
  tg_sou : source; tg_ast : list node; tg_sq : nat; tg_pth : nat;
  tg_ret : text;                 (* _plain_ret *)
  tg_plain : option pgen;        (* plain; None: not yet assigned *)
  tg_started : bool
}.
Definition text_start (sou : source) : tgen := TG sou [] 0 0 [] None false.
Definition tg_leg (g : tgen) : node := NText (tg_ast g) (tg_sq g) (tg_pth g).

Record self := Self {
  k_form : source -> M (source * option node);
  k_next : tgen -> M tgen
}.

Definition fail {A} (msg : String.string) : M A := throw (Exn SyntaxError msg).
Arguments fail {A} msg%string_scope.

(** Drive a text generator until [stop] accepts the yielded pair.  Budget: the
    length of the source plus two.  Models the [while True: next( text )] loops
    of yuparse (957-958), ps_code and ps_infix. *)
Fixpoint drive (n : nat) (k : self) (stop : tgen -> option source) (g : tgen)
  : M (source * tgen) :=
  match n with
  | O => fun _ => Fuel
  | S m =>
      let* g' := k_next k g in
      match stop g' with
      | Some rest => ret (rest, g')
      | None => drive m k stop g'
      end
  end.
Definition drive_text (k : self) (stop : tgen -> option source) (sou : source)
  : M (source * tgen) :=
  drive (S (S (length (s_txt sou)))) k stop (text_start sou).

(** _open_sq_bracket; yugen.py 1811-1812 *)
Definition open_sq_bracket (sou : source) : nat :=
  if sis ch_sq_open sou then 1%nat
  else if sstarts (lit "\[") sou then 2%nat else O.

(** Stop conditions of ps_code; yugen.py 1816-1922 *)

(** form 1 (1833-1848): EOL, spaces, [[] or [\[].  The warning at 1850-1855 is
    not modelled. *)
Definition stop_eol (g : tgen) : option source :=
  match ps_eol (tg_sou g) with
  | (rest, Some _) =>
      let rest := fst (ps_space rest) in
      match open_sq_bracket rest with
      | O => None
      | pos => Some (sfrom pos rest)
      end
  | (_, None) => None
  end.

(** form 2 (1857-1877): [[], then a gap, an optional tag and a closing parenthesis *)
Definition stop_tag (g : tgen) : option source :=
  let rest := tg_sou g in
  match open_sq_bracket rest with
  | O => None
  | pos =>
      let look := gap (sfrom pos rest) in
      if sis ch_bslash look then
        match ps_atom (sfrom 1 look) with
        | (_, None) => None
        | (look', Some _) =>
            if sis ch_close (gap look') then Some (sfrom pos rest) else None
        end
      else if sis ch_close (gap look) then Some (sfrom pos rest) else None
  end.

(** form 3 (1880-1887): a closing square bracket at depth 0 *)
Definition stop_sq (g : tgen) : option source :=
  if sis ch_sq_close (tg_sou g) && Nat.eqb (tg_sq g) 0
  then Some (sfrom 1 (tg_sou g)) else None.

(** form 4 (1890-1897) and infix (1978-1985): closing parenthesis at depth 0 *)
Definition stop_pth (g : tgen) : option source :=
  if sis ch_close (tg_sou g) && Nat.eqb (tg_pth g) 0
  then Some (sfrom 1 (tg_sou g)) else None.

(** form 5 (1900-1920): [;;], or before [,,], or before an optional tag and a
    closing parenthesis at depth 0 *)
Definition stop_comma (g : tgen) : option source :=
  let rest := tg_sou g in
  if sstarts ps_DUALSEMI rest then Some (sfrom 2 rest)
  else if sstarts ps_DUALCOMMA rest then Some rest
  else if sis ch_bslash rest then
    match ps_atom (sfrom 1 rest) with
    | (_, None) => None
    | (look, Some _) =>
        if sis ch_close (gap look) && Nat.eqb (tg_pth g) 0 then Some rest else None
    end
  else if sis ch_close rest && Nat.eqb (tg_pth g) 0 then Some rest else None.

(** infix (1968-1975): closing brace *)
Definition stop_brace (g : tgen) : option source :=
  if sis ch_rbrace (tg_sou g) then Some (sfrom 1 (tg_sou g)) else None.

(** ps_code; yugen.py 1815-1922 *)
Definition ps_code (k : self) (sou : source) : M (source * option node) :=
  let run stop from :=
    let* (rest, g) := drive_text k stop from in ret (rest, Some (tg_leg g)) in
  if sis ch_sq_close sou then
    let rest := fst (ps_space (sfrom 1 sou)) in
    match ps_eol rest with
    | (rest, Some _) => run stop_eol rest
    | (_, None) => run stop_tag (sfrom 1 sou)
    end
  else if sis ch_sq_open sou then run stop_sq (sfrom 1 sou)
  else if sstarts ps_CODE sou then run stop_pth (sfrom 6 sou)
  else if sstarts ps_DUALCOMMA sou then run stop_comma (sfrom 2 sou)
  else ret (sou, None).

(** ps_infix; yugen.py 1957-1986 *)
Definition ps_infix (k : self) (sou : source) : M (source * option node) :=
  if sis ch_lbrace sou then
    let* (rest, g) := drive_text k stop_brace (sfrom 1 sou) in
    ret (rest, Some (NInfix (tg_leg g) (s_file sou) (s_pos sou)))
  else if sstarts ps_INFIX sou then
    let* (rest, g) := drive_text k stop_pth (sfrom 4 sou) in
    ret (rest, Some (NInfix (tg_leg g) (s_file sou) (s_pos sou + 1)))
  else ret (sou, None).

(** ps_binding; yugen.py 1125-1163 *)
Fixpoint binding_names (n : nat) (acc : list source) (sou : source) : res (source * list source) :=
  match n with
  | O => Fuel
  | S m =>
      match ps_atom sou with
      | (_, None) => Err (Exn SyntaxError "ps_binding: name expected")
      | (sou, Some leg) =>
          let sou := gap sou in
          if sis ch_close sou then Ok (sfrom 1 sou, acc ++ [leg])
          else binding_names m (acc ++ [leg]) sou
      end
  end.
Definition ps_binding (k : self) (sou : source) : M (source * (lval * node)) :=
  let* (sou, lv) :=
    (if sis ch_open sou then
       let* (sou, l) := lift (binding_names (S (length (s_txt sou))) [] (gap (sfrom 1 sou))) in
       ret (sou, LList l)
     else match ps_atom sou with
          | (_, None) => fail "ps_binding: name expected"
          | (sou, Some leg) => ret (sou, LAtom leg)
          end) in
  let sou := gap sou in
  let* (sou, leg) := k_form k sou in
  match leg with
  | None => fail "ps_binding: form expected"
  | Some f => ret (sou, (lv, f))
  end.

(** { tag } gap ')' at the end of set, let, import and emit *)
Definition skip_tag (tag : text) (sou : source) : source :=
  if sstarts tag sou then gap (sfrom (length tag) sou) else sou.

(** ps_set; yugen.py 1066-1089 *)
Definition ps_set (k : self) (sou : source) : M (source * option node) :=
  if negb (sstarts ps_SET sou) then ret (sou, None)
  else
    let sou := gap (sfrom 5 sou) in
    let* (sou, (lv, f)) := ps_binding k sou in
    let sou := skip_tag ps_SET_T (gap sou) in
    if sis ch_close sou then ret (sfrom 1 sou, Some (NSet lv f))
    else fail "ps_set: )-expected".

(** ps_let; yugen.py 1092-1122 *)
Definition ps_let (k : self) (sou : source) : M (source * option node) :=
  if negb (sstarts ps_LET sou) then ret (sou, None)
  else
    let sou := gap (sfrom 5 sou) in
    let* (sou, (lv, f)) := ps_binding k sou in
    let sou := gap sou in
    let* (sou, leg) := k_form k sou in
    match leg with
    | None => fail "ps_let: form expected"
    | Some body =>
        let sou := skip_tag ps_LET_T (gap sou) in
        if sis ch_close sou then ret (sfrom 1 sou, Some (NLet lv f body))
        else fail "ps_let: )-expected"
    end.

(** ps_emit; yugen.py 1267-1299 *)
Definition ps_emit (k : self) (sou : source) : M (source * option node) :=
  if negb (sstarts ps_EMIT sou) then ret (sou, None)
  else
    let sou := gap (sfrom 6 sou) in
    let* (sou, v) := lift (ps_variable sou) in
    match v with
    | None => fail "ps_emit: variable expected"
    | Some (reg, a) =>
        let sou := gap sou in
        let* (sou, leg) := k_form k sou in
        let '(sou, f) := match leg with Some f => (gap sou, f) | None => (sou, NNone) end in
        let sou := skip_tag ps_EMIT_T sou in
        if sis ch_close sou then ret (sfrom 1 sou, Some (NEmit reg a f))
        else fail "ps_emit: )-expected"
    end.

(** ps_macro; yugen.py 1217-1264 *)
Fixpoint macro_pars (n : nat) (acc : list source) (sou : source) : res (source * list source) :=
  match n with
  | O => Fuel
  | S m =>
      if sis ch_close sou then Ok (sfrom 1 sou, acc)
      else match ps_atom sou with
           | (_, None) => Err (Exn SyntaxError "ps_macro: name expected")
           | (sou, Some leg) => macro_pars m (acc ++ [leg]) (gap sou)
           end
  end.
Definition ps_macro (sou : source) : res (source * option node) :=
  if negb (sstarts ps_MACRO sou) then Ok (sou, None)
  else
    let sou := gap (sfrom 7 sou) in
    match ps_atom sou with
    | (_, None) => Err (Exn SyntaxError "ps_macro: name expected")
    | (sou, Some name) =>
        let sou := gap sou in
        if negb (sis ch_open sou) then Err (Exn SyntaxError "ps_macro: (-expected")
        else
          match macro_pars (S (length (s_txt sou))) [] (gap (sfrom 1 sou)) with
          | Err e => Err e
          | Fuel => Fuel
          | Ok (sou, pars) =>
              if sis ch_close sou then Ok (sfrom 1 sou, Some (NMacro name pars []))
              else match plain_body sou with
                   | Ok (rest, g) =>
                       Ok (rest, Some (NMacro name pars (firstn (pg_i g) (s_txt (pg_sou g)))))
                   | Err e => Err e
                   | Fuel => Fuel
                   end
          end
    end.

(** ps_application; yugen.py 1302-1405.  [app_name] is the look-ahead for a named
    argument or tag (1354-1367): the name and the source behind it. *)
Definition app_name (sou : source) : option (source * source) :=
  if sis ch_bslash sou then
    match ps_atom (sfrom 1 sou) with
    | (_, None) => None
    | (look, Some name) =>
        let look := gap look in
        if sis ch_dotc look then None else Some (name, look)
    end
  else None.

Fixpoint app_args (n : nat) (k : self) (fn : option text)
  (args : list node) (named : list (source * node)) (sou : source)
  : M (source * list node * list (source * node)) :=
  match n with
  | O => fun _ => Fuel
  | S m =>
      let sou := gap sou in
      match app_name sou with
      | Some (name, look) =>
          let is_tag := match fn with Some f => teqb f (s_txt name) | None => false end in
          if is_tag then ret (look, args, named)
          else
            let* (sou, form) := k_form k (gap look) in
            match form with
            | None => fail "ps_application: form expected"
            | Some f => app_args m k fn args (named ++ [(name, f)]) sou
            end
      | None =>
          let embed := sis ch_star sou in
          let sou := if embed then gap (sfrom 1 sou) else sou in
          let* (sou, form) := k_form k sou in
          match form with
          | Some f => app_args m k fn (args ++ [if embed then NEmbed f else f]) named sou
          | None => if embed then fail "ps_application: unexpected *"
                    else ret (sou, args, named)
          end
      end
  end.

Definition ps_application (k : self) (sou : source) : M (source * option node) :=
  if negb (sstarts (lit "($") sou) then ret (sou, None)
  else if sstarts ps_QUOTE sou then ret (sou, None)
  else if sstarts ps_CODE sou then ps_code k sou
  else if sstarts ps_EMIT sou then ps_emit k sou
  else if sstarts ps_INFIX sou then ps_infix k sou
  else
    let sou := sfrom 2 sou in
    let pos := (s_pos sou - 1)%Z in
    let is_eval := sis ch_dollar sou in
    let sou := if is_eval then sfrom 1 sou else sou in
    let sou := gap sou in
    (* ps_function, 1560-1568 *)
    let* (sou, func) := k_form k sou in
    match func with
    | None => fail "ps_application: function expected"
    | Some func =>
        let fn := match func with NVar _ a => Some (s_txt a) | _ => None end in
        let* (sou, args, named) := app_args (S (length (s_txt sou))) k fn [] [] sou in
        let sou := gap sou in
        if negb (sis ch_close sou) then fail "ps_application: )-expected"
        else
          let app := NApply func args named (s_file sou) pos in
          ret (sfrom 1 sou,
               Some (if is_eval
                     then NEval app (Some (Src (lit "<string>") (s_file sou) (pos + 1))) None
                     else app))
    end.

(** ps_list; yugen.py 1925-1954 *)
Fixpoint list_items (n : nat) (k : self) (acc : list node) (sou : source)
  : M (source * list node) :=
  match n with
  | O => fun _ => Fuel
  | S m =>
      if sis ch_close sou then ret (sfrom 1 sou, acc)
      else
        let embed := sis ch_star sou in
        let sou := if embed then gap (sfrom 1 sou) else sou in
        let* (sou, leg) := k_form k sou in
        match leg with
        | None => fail "ps_list: form expected"
        | Some f => list_items m k (acc ++ [if embed then NEmbed f else f]) (gap sou)
        end
  end.
Definition ps_list (k : self) (sou : source) : M (source * option node) :=
  if sis ch_open sou then
    let* (sou, l) := list_items (S (length (s_txt sou))) k [] (gap (sfrom 1 sou)) in
    ret (sou, Some (NList l))
  else ret (sou, None).

(** ps_l_form; yugen.py 1774-1807 *)
Definition ps_l_form (k : self) (sou : source) : M (source * option node) :=
  let* (sou, leg) := ps_code k sou in
  match leg with Some _ => ret (sou, leg) | None =>
  let* (sou, leg) := ps_infix k sou in
  match leg with Some _ => ret (sou, leg) | None =>
  let* (sou, leg) := ps_let k sou in
  match leg with Some _ => ret (sou, leg) | None =>
  let* (sou, leg) := ps_application k sou in
  match leg with Some _ => ret (sou, leg) | None =>
  ps_list k sou
  end end end end.

(** ps_lambda; yugen.py 1606-1682 *)
Fixpoint lambda_bounds (n : nat) (k : self) (bound : list (list source * source * node))
  (late : list source) (sou : source)
  : M (source * list (list source * source * node)) :=
  match n with
  | O => fun _ => Fuel
  | S m =>
      if negb (sis ch_bslash sou) then ret (sou, bound)
      else if sstarts (lit "\...") sou then
        match late with
        | _ :: _ => fail "ps_lambda: late bound with refuge"
        | [] => lambda_bounds m k (bound ++ [([], raw (lit "..."), NNone)]) late (gap (sfrom 4 sou))
        end
      else
        match ps_atom (sfrom 1 sou) with
        | (_, None) => fail "ps_lambda: name expected"
        | (sou, Some leg) =>
            let* (sou, form) :=
              (if sis ch_colon sou then
                 let* (sou, form) := k_form k (sfrom 1 sou) in
                 match form with
                 | None => fail "ps_lambda: form expected"
                 | Some f => ret (sou, f)
                 end
               else ret (sou, NNone)) in
            if negb (sis ch_dotc sou) then fail "ps_lambda: .-expected"
            else if sstarts (lit "..") sou then
              lambda_bounds m k bound (late ++ [leg]) (gap (sfrom 2 sou))
            else
              lambda_bounds m k (bound ++ [(late, leg, form)]) [] (gap (sfrom 1 sou))
        end
  end.
Definition ps_lambda (k : self) (sou : source) : M (source * option node) :=
  if negb (sis ch_bslash sou) then ret (sou, None)
  else if sstarts (lit "\(") sou then
    let* (sou, v) := lift (ps_variable (gap (sfrom 2 sou))) in
    match v with
    | None => fail "ps_lambda: variable expected"
    | Some (reg, a) =>
        let sou := gap sou in
        if negb (sstarts (lit ").") sou) then fail "ps_lambda: ).-expected"
        else
          let* (sou, leg) := ps_l_form k (gap (sfrom 2 sou)) in
          match leg with
          | None => fail "ps_lambda: l-form expected"
          | Some f => ret (sou, Some (NLambdaV reg a f))
          end
    end
  else
    let* (sou, bound) := lambda_bounds (S (length (s_txt sou))) k [] [] sou in
    let* (sou, leg) := ps_l_form k sou in
    match leg with
    | None => fail "ps_lambda: l-form expected"
    | Some f => ret (sou, Some (NLambda bound f))
    end.

(** ps_value; yugen.py 1686-1702 *)
Definition ps_value (sou : source) : res (source * option node) :=
  match ps_quote (c_python cx) sou with
  | Ok (sou, None) => ps_number sou
  | r => r
  end.

(** ps_former; yugen.py 1743-1771 *)
Definition ps_former (k : self) (sou : source) : M (source * option node) :=
  let* (sou, leg) := lift (ps_value sou) in
  match leg with Some _ => ret (sou, leg) | None =>
  let* (sou, v) := lift (ps_variable sou) in
  match v with Some (reg, a) => ret (sou, Some (NVar reg a)) | None =>
  let* (sou, leg) := ps_lambda k sou in
  match leg with Some _ => ret (sou, leg) | None =>
  ps_l_form k sou
  end end end.

(** ps_form; yugen.py 1705-1740 *)
Definition ps_form (k : self) (sou : source) : M (source * option node) :=
  let* (sou, leg) := ps_former k sou in
  match leg with
  | None => ret (sou, None)
  | Some f =>
      let sou := gap sou in
      if sis ch_quest sou then
        let* (sou, cond) := ps_former k (gap (sfrom 1 sou)) in
        match cond with
        | None => fail "ps_form: former expected"
        | Some c =>
            let sou := gap sou in
            if sis ch_bar sou then
              let* (sou, form) := k_form k (gap (sfrom 1 sou)) in
              match form with
              | None => fail "ps_form: form expected"
              | Some e => ret (sou, Some (NCond c f e))
              end
            else ret (sou, Some (NCond c f NNone))
        end
      else ret (sou, Some f)
  end.

(** ** Imports *)

(** key of the empty source; SOURCE_EMPTY, yugen.py 2652 *)
Definition source_empty : text := lit "<null>".

(** search of [lib] in the directories; yugen.py 873-878, 896-901 *)
Fixpoint find_lib (dirs : list text) (lib lpath : text) : text :=
  match dirs with
  | [] => lpath
  | d :: ds => let p := path_join d lib in
               match c_read cx p with
               | Some _ => p
               | None => find_lib ds lib p
               end
  end.
Definition lib_path (lib : text) : text :=
  match c_read cx lib with
  | Some _ => lib
  | None => find_lib (c_dirs cx) lib lib
  end.

(** _import_source; yugen.py 867-887: the key to parse *)
Definition import_source (lib : text) (once : bool) : M text :=
  let* st := get_st in
  if once && dict_mem lib (y_source st) then ret source_empty
  else
    let lpath := lib_path lib in
    match c_read cx lpath with
    | None => throw (Exn IOError "ps_import: no such file")
    | Some t =>
        let* _ := modify (set_source (dict_set lib (DPath lpath, unify_eol t) (y_source st))) in
        ret lib
    end.

(** _import_python; yugen.py 890-909 *)
Definition import_python (script : text) : M unit :=
  let* st := get_st in
  if existsb (teqb script) (y_script st) then ret tt
  else
    let* _ := lift (c_pyimport cx (lib_path script)) in
    modify (set_script (y_script st ++ [script])).

(** [str(x)] of a node in the text of an infix expression; yugen.py 914 *)
Definition node_str (x : node) : text :=
  match x with
  | NAtom s | NRemark s | NStr s | NPlain s _ _ | NSource s => s_txt s
  | NRaw t | NResult t _ _ => t
  | NInt z => Z_text z
  | _ => c_str cx x
  end.

(** _import_eval; yugen.py 912-923 *)
Definition import_eval (ast : list node) (file : option text) (pos : Z) : M text :=
  let code := concat (map node_str ast) in
  let* sou := lift (c_evalimport cx code) in
  let* st := get_st in
  let key := nat_text (length (y_inclusion st)) in
  let* _ := modify (fun st => set_source (dict_set key (DSrc (Src code file pos), sou) (y_source st))
                      (set_inclusion (y_inclusion st ++ [None]) st)) in
  ret key.

(** TEXT.enclose_import; yugen.py 557-560 *)
Definition enclose_import (ast : list node) : list node :=
  match ast with [] => [] | _ => NImportBegin :: ast ++ [NImportEnd] end.

(** the text of a quoted name, and the text of an infix expression with its
    location: what ps_import takes from the leg just read (1178-1206) *)
Definition leg_quote (leg : option node) : option source :=
  match leg with Some (NStr q) => Some q | _ => None end.
Definition leg_infix (leg : option node) : option (list node * option text * Z) :=
  match leg with Some (NInfix (NText ast _ _) file pos) => Some (ast, file, pos) | _ => None end.

(** ps_import; yugen.py 1166-1214.  Returns the items to be added to the text. *)
Definition ps_import (k : self) (sou : source) : M (source * option (list node)) :=
  if negb (sstarts ps_IMPORT sou) then ret (sou, None)
  else
    let sou := gap (sfrom 8 sou) in
    let* (sou, items) :=
      (match ps_atom sou with
       | (sou, Some leg) =>
           let* key := import_source (s_txt leg ++ lit ".yu") true in
           let* ast := imp key in
           ret (sou, enclose_import ast)
       | (sou, None) =>
           let* (sou, leg) := lift (ps_quote (c_python cx) sou) in
           match leg_quote leg with
           | Some q =>
               let lpath := unq cx (s_txt q) in
               let '(fn, e) := splitext (basename lpath) in
               if teqb (lower e) (lit ".py") then
                 let* _ := import_python lpath in ret (sou, [])
               else
                 let* key := import_source lpath false in
                 let* ast := imp key in
                 ret (sou, enclose_import ast)
           | None =>
               let* (sou, leg) := ps_infix k sou in
               match leg_infix leg with
               | Some (ast, file, pos) =>
                   let* key := import_eval ast file pos in
                   let* ast := imp key in
                   ret (sou, ast)
               | None => fail "ps_import: name of imported file expected"
               end
           end
       end) in
    let sou := skip_tag ps_IMPORT_T (gap sou) in
    if sis ch_close sou then ret (sfrom 1 sou, Some items)
    else fail "ps_import: )-expected".

(** ** ps_text; yugen.py 979-1063 *)

(** One attempt of the constructs set .. remark (996-1050): the items found *)
Definition text_item (k : self) (sou : source) : M (source * option (list node)) :=
  let one (r : source * option node) : source * option (list node) :=
    (fst r, option_map (fun x => [x]) (snd r)) in
  let* (sou, leg) := ps_set k sou in
  match leg with Some x => ret (sou, Some [x]) | None =>
  let* (sou, leg) := ps_let k sou in
  match leg with Some x => ret (sou, Some [x]) | None =>
  let* (sou, items) := ps_import k sou in
  match items with Some l => ret (sou, Some l) | None =>
  let* (sou, leg) := lift (ps_macro sou) in
  match leg with Some x => ret (sou, Some [x]) | None =>
  let* (sou, leg) := lift (ps_comment sou) in
  match leg with Some x => ret (sou, Some [x]) | None =>
  let* (sou, leg) := ps_application k sou in
  match leg with Some x => ret (sou, Some [x]) | None =>
  let* (sou, leg) := lift (ps_quote (c_python cx) sou) in
  match leg with Some x => ret (sou, Some [x]) | None =>
  match c_skip cx with
  | SkipC => let* r := lift (ps_remark_c sou) in ret (one r)
  | SkipPython =>
      let '(sou, leg) := ps_remark_python sou in
      ret (sou, option_map (fun s => [NRemark s]) leg)
  | SkipNone => ret (sou, None)
  end
  end end end end end end end.

(** the loop up to YIELD *)
Fixpoint text_items (n : nat) (k : self) (ast : list node) (sou : source)
  : M (source * list node) :=
  match n with
  | O => fun _ => Fuel
  | S m =>
      let* (sou, items) := text_item k sou in
      match items with
      | Some l => text_items m k (ast ++ l) sou
      | None => ret (sou, ast)
      end
  end.

(** plain (1056-1063): [ast.pop()] and reuse of the previous generator if nothing
    was parsed since it yielded *)
Definition text_plain (g : tgen) : res tgen :=
  let nonempty := match tg_ast g with [] => false | _ => true end in
  let reuse := teqb (s_txt (tg_sou g)) (tg_ret g) && nonempty in
  let ast := if reuse then removelast (tg_ast g) else tg_ast g in
  let pg := if reuse then tg_plain g
            else Some (plain_start (tg_sou g) (tg_sq g) (tg_pth g)
                         (if nonempty then IndNone else IndStr [])) in
  match pg with
  | None => Err (Exn UnboundLocalError "local variable 'plain' referenced before assignment")
  | Some pg =>
      match plain_next pg with
      | Ok pg' => Ok (TG (pg_rest pg') (ast ++ [pg_leg pg']) (pg_sq pg') (pg_pth pg')
                         (s_txt (pg_rest pg')) (Some pg') true)
      | Err e => Err e
      | Fuel => Fuel
      end
  end.

Definition text_next (k : self) (g : tgen) : M tgen :=
  let* g := (if tg_started g then lift (text_plain g) else ret g) in
  let* (sou, ast) := text_items (S (length (s_txt (tg_sou g)))) k (tg_ast g) (tg_sou g) in
  ret (TG sou ast (tg_sq g) (tg_pth g) (tg_ret g) (tg_plain g) true).

(** ** Closing the recursion *)
Fixpoint knot (n : nat) : self :=
  match n with
  | O => Self (fun _ _ => Fuel) (fun _ _ => Fuel)
  | S m => let k := knot m in Self (ps_form k) (text_next k)
  end.

(** ** ps_header_python; yugen.py 1467-1507 *)

Definition is_word (c : char) : bool :=
  ps_LETTER c || is_digit c ||
  (* Latin-1 letters and numerals; code points above 255 are taken as word
     characters (simplification) *)
  (c =? 170) || (c =? 178) || (c =? 179) || (c =? 181) || (c =? 185) || (c =? 186)
  || ((188 <=? c) && (c <=? 190)) || ((192 <=? c) && negb (c =? 215) && negb (c =? 247)).
Definition enc_char (c : char) : bool := ps_LETTER c || is_digit c || (c =? 45).
(** [(?:\W|$)] *)
Definition at_boundary (s : text) : bool :=
  match s with [] => true | c :: r => negb (is_word c) || ((c =? 10) && match r with [] => true | _ => false end) end.
(** longest [k] between 1 and [n] such that the text behind [k] characters is at a boundary *)
Fixpoint longest_boundary (n : nat) (s : text) : option nat :=
  match n with
  | O => None
  | S m => if at_boundary (skipn n s) then Some n else longest_boundary m s
  end.
(** re_CODING (827) at the start of [s]: [None] no match, [Some false] without
    encoding, [Some true] with encoding (group 1) *)
Definition coding_at (s : text) : option bool :=
  let l := lower s in
  if startswith (lit "coding:") l || startswith (lit "coding=") l then
    let r := skipn 7 s in
    let r := skipn (span_len ps_SPACE r) r in
    if startswith (lit "yupp") (lower r) then
      let r := skipn 4 r in
      let group :=
        match r with
        | c :: r' => if c =? 46 then longest_boundary (span_len enc_char r') r' else None
        | [] => None
        end in
      match group with
      | Some _ => Some true
      | None => if at_boundary r then Some false else None
      end
    else None
  else None.
(** re_CODING.search *)
Fixpoint coding_search (s : text) : option bool :=
  match coding_at s with
  | Some b => Some b
  | None => match s with [] => None | _ :: r => coding_search r end
  end.

(** [leg.find( 'yupp.' )], -1 if absent; then the two slices at 1492 *)
Definition header_encoding (leg : source) : list node :=
  let i := match find_sub (lit "yupp.") (s_txt leg) with Some i => Z.of_nat i | None => (-1)%Z end in
  [NRemark (Src (py_to i (s_txt leg)) (s_file leg) (s_pos leg));
   NRemark (Src (py_from (i + 5) (s_txt leg)) (s_file leg) (s_pos leg + (i + 5)))].

(** header loop; [ln] is ln_count *)
Fixpoint header_loop (ln : nat) (header : list node) (rest : source)
  : option (source * list node * nat) :=
  match ln with
  | O => None
  | S m =>
      let rest := fst (ps_space rest) in
      match ps_remark_python rest with
      | (rest, Some leg) =>
          match coding_search (s_txt leg) with
          | Some false => Some (rest, header, (3 - ln)%nat)
          | Some true => Some (rest, header ++ header_encoding leg, (3 - ln)%nat)
          | None =>
              match ps_eol rest with
              | (rest, Some eol) => header_loop m (header ++ [NRemark leg; NSource eol]) rest
              | (rest, None) => header_loop m (header ++ [NRemark leg; NNone]) rest
              end
          end
      | (_, None) => None
      end
  end.
Definition ps_header_python (sou : source) : M (source * option (list node)) :=
  let rest := fst (ps_space sou) in
  let '(rest, eol) := ps_eol rest in
  match header_loop (match eol with Some _ => 1 | None => 2 end)%nat [] rest with
  | Some (rest, header, shrink) =>
      let* _ := modify (set_shrink shrink) in ret (rest, Some header)
  | None => ret (sou, None)
  end.

(** the loop [while sou] of yuparse *)
Definition stop_eof (g : tgen) : option source :=
  match s_txt (tg_sou g) with [] => Some (tg_sou g) | _ => None end.

(** yuparse; yugen.py 941-976, for the source registered under [key].  Without
    any text behind a header the variable [ast] is never assigned. *)
Definition yuparse_with (key : text) : M (list node) :=
  let* st := get_st in
  match dict_get key (y_source st) with
  | None => throw (Exn KeyError "yushell.source")
  | Some (_, []) => ret []
  | Some (_, src) =>
      let sou := Src src (Some key) 0 in
      let* (sou, header) :=
        (if teqb (c_main cx) key && c_python cx
         then ps_header_python sou
         else ret (sou, None)) in
      match s_txt sou with
      | [] => throw (Exn UnboundLocalError "local variable 'ast' referenced before assignment")
      | _ =>
          let* (_, g) := drive_text (knot (S (length (s_txt sou)))) stop_eof sou in
          ret (match header, tg_ast g with
               | Some h, _ :: _ => h ++ tg_ast g
               | _, a => a
               end)
      end
  end.
End Rules.

(** Imports nest at most [d] deep. *)
Fixpoint yuparse (cx : pctx) (d : nat) (key : text) : M (list node) :=
  match d with
  | O => fun _ => Fuel
  | S d' => yuparse_with cx (yuparse cx d') key
  end.
