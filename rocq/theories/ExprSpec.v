(** * Expressions and how they are written *)
From Coq Require Import List NArith ZArith Bool String.
From Verif Require Import PyStr LexSpec Ast Parse ProtectSpec.
Import ListNotations.
Open Scope list_scope.
Open Scope N_scope.

(** A variable: a name behind the names of its regions, or a late bound name *)
Inductive var_name := VName (reg : list text) (a : text) | VLate (a : text).
(** What a local binding names *)
Inductive binder := BName (a : text) | BNames (l : list text).
(** What encloses a text: square brackets, braces, the lines of a block, whose
    closing line is indented by [ind], two commas and two semicolons, two commas and
    what follows the text, [w], or the parentheses of a [code] or of an infix
    construct; the text of a whole source is enclosed by nothing. *)
Inductive delim := DSquare | DBrace | DBlock (ind : text) | DSemi | DUntil (w : text) | DCode | DInfix | DSource.
(** The contents of a text: the characters of the running text and the trees of
    its literals, quotations, comments and constructs *)
Definition contents := list (char + node).
Definition chars_of (t : text) : contents := map inl t.

(** Items of lists and positional arguments carry a flag: spliced or not.  An
    application may be marked for evaluation as code, and the function may follow
    the opening immediately. *)
Inductive expr :=
| ENum (z : Z)
| EStr (q : char) (body : text)                 (* a C literal *)
| EPy (w : text)                                (* a Python literal *)
| EQuote (body : text)
| EVar (v : var_name)
| EList (l : list (bool * expr))
| EApp (ev tight : bool) (f : expr) (args : list (bool * expr)) (named : list (text * expr))
| ELambda (ps : list param) (body : expr)
| ELambdaV (v : var_name) (body : expr)         (* parameters given by a variable *)
| ELet (b : binder) (e body : expr)
| ECond (cond e1 : expr) (e0 : option expr)
| EText (k : delim) (t : text) (d : contents)   (* the text [t], of contents [d] *)
with param :=
| Param (late : list text) (name : text) (default : option expr)
| Rest.                                         (* the remaining arguments *)

(** ** Writing *)
Definition show_var (v : var_name) : text :=
  match v with
  | VName reg a => flat_map (fun r => r ++ lit "::") reg ++ a
  | VLate a => 38 :: a
  end.
Definition show_binder (b : binder) : text :=
  match b with
  | BName a => a
  | BNames l => 40 :: flat_map (fun a => 32 :: a) l ++ lit ")"
  end.
Definition opening (k : delim) : text :=
  match k with
  | DSquare => lit "[" | DBrace => lit "{" | DBlock _ => 93 :: [10]
  | DSemi | DUntil _ => lit ",," | DCode => lit "($code" | DInfix => lit "(${}" | DSource => []
  end.
Definition closing (k : delim) : text :=
  match k with
  | DSquare => lit "]" | DBrace => lit "}" | DBlock ind => 10 :: ind ++ lit "["
  | DSemi => lit ";;" | DUntil w => w | DCode | DInfix => lit ")" | DSource => []
  end.
(** what belongs to the enclosed text of that *)
Definition ending (k : delim) : text := match k with DUntil _ => [] | _ => closing k end.
Definition star (spliced : bool) : text := if spliced then [42] else [].
Fixpoint show (e : expr) : text :=
  match e with
  | ENum z => Z_text z
  | EStr q body => q :: body ++ [q]
  | EPy w => w
  | EQuote body => lit "(`" ++ body ++ lit ")"
  | EVar v => show_var v
  | EList l => 40 :: flat_map (fun it => 32 :: star (fst it) ++ show (snd it)) l ++ lit ")"
  | EApp ev tight f args named =>
      lit "($" ++ (if ev then [36] else []) ++ (if tight then [] else [32]) ++ show f
      ++ flat_map (fun it => 32 :: star (fst it) ++ show (snd it)) args
      ++ flat_map (fun it => 32 :: 92 :: fst it ++ 32 :: show (snd it)) named ++ lit ")"
  | ELambda ps body => flat_map (fun p => show_param p) ps ++ show body
  | ELambdaV v body => lit "\(" ++ show_var v ++ lit ")." ++ show body
  | ELet b e body => lit "($let " ++ show_binder b ++ 32 :: show e ++ 32 :: show body ++ lit ")"
  | ECond c e1 e0 =>
      show e1 ++ lit " ? " ++ show c ++ match e0 with Some e => lit " | " ++ show e | None => [] end
  | EText k t _ => opening k ++ t ++ ending k
  end
with show_param (p : param) : text :=
  match p with
  | Param late a d =>
      flat_map (fun l => 92 :: l ++ lit "..") late ++ 92 :: a ++
      match d with Some e => 58 :: show e | None => [] end ++ lit "."
  | Rest => lit "\..."
  end.

(** What a construct in the running text may be: an application, a local binding,
    a text enclosed by parentheses, the binding of a name for the text that
    follows, the output of a variable, a macro or a comment. *)
Inductive construct :=
| CExpr (e : expr)
| CSet (b : binder) (e : expr)
| CEmit (v : var_name) (e : option expr)
| CMacro (name : text) (ps : list text) (body : text)
| CRemoved (body : text).
Definition show_construct (c : construct) : text :=
  match c with
  | CExpr e => show e
  | CSet b e => lit "($set " ++ show_binder b ++ 32 :: show e ++ lit ")"
  | CEmit v e => lit "($emit " ++ show_var v ++ match e with Some e => 32 :: show e | None => [] end ++ lit ")"
  | CMacro a ps body => lit "($macro " ++ a ++ lit " (" ++ flat_map (fun a => a ++ [32]) ps ++ lit ")" ++ body ++ lit ")"
  | CRemoved body => lit "($!" ++ body ++ lit ")"
  end.

(** ** The tree of an expression, without locations *)
Definition tree_region (v : var_name) : region := match v with VName reg _ => RList (map raw reg) | VLate _ => RLate end.
Definition tree_name (v : var_name) : source := match v with VName _ a | VLate a => raw a end.
Definition tree_binder (b : binder) : lval := match b with BName a => LAtom (raw a) | BNames l => LList (map raw l) end.
Definition spliced (b : bool) (x : node) : node := if b then NEmbed x else x.
(** The indentation behind the character [c] of running text: the blanks behind a
    line end, as long as nothing else follows *)
Definition indent_behind (i : indent) (c : char) : indent :=
  if (c =? 10) || (c =? 13) then IndStr []
  else if (c =? 32) || (c =? 9) then match i with IndStr b => IndStr (b ++ [c]) | i => i end
  else IndFalse.
(** A run of running text; [first]: nothing is in front of it. *)
Definition run (first : bool) (w : text) : list node :=
  match w with [] => [] | _ => [NPlain (raw w) (fold_left indent_behind w (if first then IndStr [] else IndNone)) false] end.
(** The pieces of a text: its longest runs and what stands between them *)
Fixpoint runs (first : bool) (w : text) (d : contents) : list node :=
  match d with
  | [] => run first w
  | inl c :: d => runs first (w ++ [c]) d
  | inr x :: d => run first w ++ x :: runs false [] d
  end.
Definition tree_text (d : contents) : node := NText (runs true [] d) 0 0.
Fixpoint tree (e : expr) : node :=
  match e with
  | ENum z => NInt z
  | EStr q body => NStr (raw (q :: body ++ [q]))
  | EPy w => NStr (raw w)
  | EQuote body => NStr (raw body)
  | EVar v => NVar (tree_region v) (tree_name v)
  | EList l => NList (map (fun it => spliced (fst it) (tree (snd it))) l)
  | EApp ev tight f args named =>
      let app := NApply (tree f) (map (fun it => spliced (fst it) (tree (snd it))) args)
                        (map (fun it => (raw (fst it), tree (snd it))) named) None 0 in
      if ev then NEval app None None else app
  | ELambda ps body => NLambda (map (fun p => tree_param p) ps) (tree body)
  | ELambdaV v body => NLambdaV (tree_region v) (tree_name v) (tree body)
  | ELet b e body => NLet (tree_binder b) (tree e) (tree body)
  | ECond c e1 e0 => NCond (tree c) (tree e1) (match e0 with Some e => tree e | None => NNone end)
  | EText (DBrace | DInfix) _ d => NInfix (tree_text d) None 0
  | EText _ _ d => tree_text d
  end
with tree_param (p : param) : list source * source * node :=
  match p with
  | Param late a d => (map raw late, raw a, match d with Some e => tree e | None => NNone end)
  | Rest => ([], raw (lit "..."), NNone)
  end.
Definition tree_construct (c : construct) : node :=
  match c with
  | CExpr e => tree e
  | CSet b e => NSet (tree_binder b) (tree e)
  | CEmit v e => NEmit (tree_region v) (tree_name v) (match e with Some e => tree e | None => NNone end)
  | CMacro a ps body => NMacro (raw a) (map raw ps) body
  | CRemoved _ => NComment
  end.

(** ** What may follow *)
(** The next character neither continues a name or a number nor opens a
    string. *)
Definition delimited (r : text) : Prop :=
  stops_at (fun c => name_char c \/ c = 58 \/ c = 34 \/ c = 39) r /\ (forall d r', r = 46 :: d :: r' -> ~ decimal_digit d).
(** The next character that is not white space is neither a question mark nor a bar. *)
Definition no_branch (r : text) : Prop := forall g c r', r = g ++ c :: r' -> Forall white g -> c <> 63 /\ c <> 124.
(** [r] may follow [e]: it does not continue the number, name or string at the end of
    [e], or closes the text there. *)
Fixpoint follows (e : expr) (r : text) : Prop :=
  match e with
  | ENum _ | EPy _ | EVar _ => delimited r
  | EStr _ _ | EQuote _ | EList _ | EApp _ _ _ _ _ | ELet _ _ _ => True
  | ELambda _ body | ELambdaV _ body => follows body r
  | ECond c _ None => follows c r
  | ECond _ _ (Some e) => follows e r
  | EText (DUntil w) _ _ => begins w r
  | EText _ _ _ => True
  end.

(** ** Expressions that can be written *)
Definition is_lform (e : expr) : bool :=
  match e with EList _ | EApp _ _ _ _ _ | ELet _ _ _ | EText _ _ _ => true | _ => false end.
Definition is_former (e : expr) : bool := match e with ECond _ _ _ => false | _ => true end.
(** The text of [e] begins like a named argument. *)
Fixpoint opens_named (e : expr) : bool :=
  match e with
  | ELambda (Param [] _ (Some _) :: _) _ => true
  | ECond _ a _ => opens_named a
  | _ => false
  end.
Definition var_ok (v : var_name) : Prop :=
  match v with VName reg a => Forall identifier reg /\ identifier a | VLate a => identifier a end.
Definition binder_ok (b : binder) : Prop :=
  match b with BName a => identifier a | BNames l => Forall identifier l /\ l <> [] end.
(** the name that closes the arguments of [f] when written behind a backslash *)
Definition closing_tag (f : expr) : option text :=
  match f with EVar (VName _ a) | EVar (VLate a) => Some a | _ => None end.
(** words with a meaning of their own behind the opening of an application *)
Definition keywords : list text := map lit ["{}"; "code"; "set"; "let"; "import"; "quote"; "macro"; "emit"]%string.
(** How many square brackets and how many parentheses are open *)
Definition depth := (nat * nat)%type.
Definition level : depth := (0%nat, 0%nat).
(** [r] begins with what closes a text enclosed by [k], [n] brackets being open in
    it.  Behind two commas, the text is also closed by two commas, and by what
    closes an application: a parenthesis, or a name behind a backslash and a
    parenthesis. *)
Definition closes_at (k : delim) (n : depth) (r : text) : Prop :=
  match k with
  | DSquare => fst n = O /\ begins (lit "]") r
  | DBrace => begins (lit "}") r
  | DBlock _ => exists c b, line_end c /\ Forall blank b /\ (begins (c :: b ++ lit "[") r \/ begins (c :: b ++ lit "\[") r)
  | DSemi | DUntil _ => begins (lit ";;") r \/ begins (lit ",,") r \/
      snd n = O /\ (begins (lit ")") r \/ exists a g, identifier a /\ Forall white g /\ begins (92 :: a ++ g ++ lit ")") r)
  | DCode | DInfix => snd n = O /\ begins (lit ")") r
  | DSource => False
  end.
Definition may_end (k : delim) (n : depth) : Prop :=
  match k with DSquare => fst n = O | DCode | DInfix => snd n = O | DUntil w => closes_at k n w | _ => True end.
(** brackets open behind the character [c] *)
Definition depth_behind (c : char) (n : depth) : depth :=
  (if c =? 91 then S (fst n) else if c =? 93 then pred (fst n) else fst n,
   if c =? 40 then S (snd n) else if c =? 41 then pred (snd n) else snd n).
Definition delim_ok (k : delim) : Prop :=
  match k with
  | DBlock ind => Forall blank ind
  | DUntil w => w = lit ",," \/ w = lit ")" \/ exists a g, identifier a /\ Forall white g /\ w = 92 :: a ++ g ++ lit ")"
  | DSource => False
  | _ => True
  end.

(** ** The ways to write an expression *)
(** White space may stand between the parts of an expression. *)
Inductive binder_text : binder -> text -> Prop :=
| bt_name a : identifier a -> binder_text (BName a) a
| bt_names g ps : Forall white g -> params_ok ps -> ps <> [] -> binder_text (BNames (map fst ps)) (40 :: g ++ param_text ps ++ lit ")").
Definition binder_ends (b : binder) (r : text) : Prop := match b with BName _ => stops_at name_char r | BNames _ => True end.
(** late bound names in front of a parameter *)
Inductive late_text : list text -> text -> Prop :=
| lt_end : late_text [] []
| lt_name a l g r : identifier a -> Forall white g -> late_text l r -> late_text (a :: l) (92 :: a ++ lit ".." ++ g ++ r).
(** the end of a binding: its keyword may be repeated behind a backslash *)
Inductive closed_by (tag : text) : text -> Prop :=
| cb_plain g : Forall white g -> closed_by tag (g ++ lit ")")
| cb_tag g g' : Forall white g -> Forall white g' -> closed_by tag (g ++ 92 :: tag ++ g' ++ lit ")").
Inductive opens : delim -> text -> Prop :=
| op_as k : opens k (opening k)
| op_block ind b c : Forall blank b -> line_end c -> opens (DBlock ind) (93 :: b ++ [c]).
Definition quote_opening (o : text) : Prop := o = lit "(`" \/ o = lit "($quote".

Inductive spelled (python : bool) (m : skip_mode) : expr -> text -> Prop :=
| sp_num sg sf w v suf : sign_of sg sf -> int_literal w v -> long_suffix suf -> spelled python m (ENum (sf v)) (sg ++ w ++ suf)
| sp_str q body : python = false -> q = 34 \/ q = 39 -> literal_inside q body -> spelled python m (EStr q body) (q :: body ++ [q])
| sp_python w : python = true -> python_literal w [] -> spelled python m (EPy w) w
| sp_quote o body : quote_opening o -> Forall permitted body -> balanced body -> spelled python m (EQuote body) (o ++ body ++ lit ")")
| sp_var v : var_ok v -> spelled python m (EVar v) (show_var v)
| sp_list l t : items python m l t -> spelled python m (EList l) (40 :: t)
| sp_app ev tight f args named g t r : Forall white g -> spelled python m f t -> follows f r ->
    (ev = false -> g = [] -> Forall (fun w => ~ begins w (t ++ r)) keywords) ->
    arguments python m (closing_tag f) args named r ->
    spelled python m (EApp ev tight f args named) (lit "($" ++ (if ev then [36] else []) ++ g ++ t ++ r)
| sp_lambda ps body t r : ps <> [] -> parameters python m ps t -> spelled python m body r -> is_lform body = true ->
    spelled python m (ELambda ps body) (t ++ r)
| sp_lambdav v body g1 g2 g3 r : var_ok v -> Forall white g1 -> Forall white g2 -> Forall white g3 ->
    spelled python m body r -> is_lform body = true ->
    spelled python m (ELambdaV v body) (lit "\(" ++ g1 ++ show_var v ++ g2 ++ lit ")." ++ g3 ++ r)
| sp_let b e body g1 w g2 t g3 u z : Forall white g1 -> binder_text b w -> Forall white g2 -> spelled python m e t -> Forall white g3 ->
    spelled python m body u -> closed_by (lit "let") z -> binder_ends b (g2 ++ t) -> follows e (g3 ++ u) -> follows body z ->
    spelled python m (ELet b e body) (lit "($let" ++ g1 ++ w ++ g2 ++ t ++ g3 ++ u ++ z)
| sp_then c e1 t1 g1 g2 t : spelled python m e1 t1 -> is_former e1 = true -> Forall white g1 -> Forall white g2 ->
    spelled python m c t -> is_former c = true -> follows e1 (g1 ++ lit "?") ->
    spelled python m (ECond c e1 None) (t1 ++ g1 ++ 63 :: g2 ++ t)
| sp_else c e1 e0 t1 g1 g2 t g3 g4 t0 : spelled python m e1 t1 -> is_former e1 = true -> Forall white g1 -> Forall white g2 ->
    spelled python m c t -> is_former c = true -> follows e1 (g1 ++ lit "?") ->
    Forall white g3 -> Forall white g4 -> spelled python m e0 t0 -> follows c (g3 ++ lit "|") ->
    spelled python m (ECond c e1 (Some e0)) (t1 ++ g1 ++ 63 :: g2 ++ t ++ g3 ++ 124 :: g4 ++ t0)
| sp_text k o t d : delim_ok k -> opens k o -> written python m k level t d -> spelled python m (EText k t d) (o ++ t ++ ending k)
(** the items of a list up to its end *)
with items (python : bool) (m : skip_mode) : list (bool * expr) -> text -> Prop :=
| it_end g : Forall white g -> items python m [] (g ++ lit ")")
| it_item b e l g1 g2 t r : Forall white g1 -> Forall white g2 -> spelled python m e t -> follows e r -> items python m l r ->
    items python m ((b, e) :: l) (g1 ++ star b ++ g2 ++ t ++ r)
(** the arguments of an application up to its end; positional and named arguments may
    be mixed *)
with arguments (python : bool) (m : skip_mode) : option text -> list (bool * expr) -> list (text * expr) -> text -> Prop :=
| ar_end tag g : Forall white g -> arguments python m tag [] [] (g ++ lit ")")
| ar_tag a g1 g2 : Forall white g1 -> Forall white g2 -> arguments python m (Some a) [] [] (g1 ++ 92 :: a ++ g2 ++ lit ")")
| ar_item tag b e args named g1 g2 t r : Forall white g1 -> Forall white g2 -> spelled python m e t -> (b = false -> opens_named e = false) ->
    follows e r -> arguments python m tag args named r ->
    arguments python m tag ((b, e) :: args) named (g1 ++ star b ++ g2 ++ t ++ r)
| ar_named tag a e args named g1 g2 t r : identifier a -> tag <> Some a -> Forall white g1 -> Forall white g2 -> spelled python m e t ->
    stops_at name_char (g2 ++ t) -> follows e r -> arguments python m tag args named r ->
    arguments python m tag args ((a, e) :: named) (g1 ++ 92 :: a ++ g2 ++ t ++ r)
with parameters (python : bool) (m : skip_mode) : list param -> text -> Prop :=
| pm_end : parameters python m [] []
| pm_plain late w a ps g r : late_text late w -> identifier a -> Forall white g -> parameters python m ps r ->
    parameters python m (Param late a None :: ps) (w ++ 92 :: a ++ 46 :: g ++ r)
| pm_default late w a e t g1 g2 ps r : late_text late w -> identifier a -> spelled python m e t -> Forall white g1 -> follows e (g1 ++ lit ".") ->
    Forall white g2 -> parameters python m ps r ->
    parameters python m (Param late a (Some e) :: ps) (w ++ 92 :: a ++ 58 :: t ++ g1 ++ 46 :: g2 ++ r)
| pm_rest g ps r : Forall white g -> parameters python m ps r -> parameters python m (Rest :: ps) (lit "\..." ++ g ++ r)
with spelled_construct (python : bool) (m : skip_mode) : construct -> text -> Prop :=
| sc_expr e t : spelled python m e t -> match e with EApp _ _ _ _ _ | ELet _ _ _ | EText (DCode | DInfix) _ _ => True | _ => False end ->
    spelled_construct python m (CExpr e) t
| sc_set b e g1 w g2 t z : Forall white g1 -> binder_text b w -> Forall white g2 -> spelled python m e t -> closed_by (lit "set") z ->
    binder_ends b (g2 ++ t) -> follows e z ->
    spelled_construct python m (CSet b e) (lit "($set" ++ g1 ++ w ++ g2 ++ t ++ z)
| sc_emit v g1 g2 : var_ok v -> Forall white g1 -> Forall white g2 ->
    spelled_construct python m (CEmit v None) (lit "($emit" ++ g1 ++ show_var v ++ g2 ++ lit ")")
| sc_emit_expr v e g1 g2 t z : var_ok v -> Forall white g1 -> Forall white g2 -> spelled python m e t -> delimited (g2 ++ t) ->
    closed_by (lit "emit") z -> follows e z ->
    spelled_construct python m (CEmit v (Some e)) (lit "($emit" ++ g1 ++ show_var v ++ g2 ++ t ++ z)
| sc_macro a g1 g2 g3 ps body : identifier a -> Forall white g1 -> Forall white g2 -> Forall white g3 -> params_ok ps ->
    Forall permitted body -> balanced body ->
    spelled_construct python m (CMacro a (map fst ps) body)
      (lit "($macro" ++ g1 ++ a ++ g2 ++ 40 :: g3 ++ param_text ps ++ 41 :: body ++ lit ")")
| sc_removed body : Forall permitted body -> balanced body -> spelled_construct python m (CRemoved body) (lit "($!" ++ body ++ lit ")")
(** The text [t], enclosed by [k] and with [n] brackets open before it,
    has the contents [d].  Its parts are ordinary characters, at which the text is
    not closed, literals, comments (if they are skipped), quotations and
    constructs. *)
with written (python : bool) (m : skip_mode) : delim -> depth -> text -> contents -> Prop :=
| wr_end k n : may_end k n -> written python m k n [] []
| wr_char k n c r d : permitted c -> c <> 34 -> c <> 39 -> ~ begins (lit "($") (c :: r) -> ~ begins (lit "(`") (c :: r) ->
    ~ comment_begins m (c :: r) -> (python = true -> ~ string_begins (c :: r)) -> ~ closes_at k n (c :: r ++ closing k) -> written python m k (depth_behind c n) r d ->
    written python m k n (c :: r) (inl c :: d)
| wr_literal k n q body r d : python = false -> q = 34 \/ q = 39 -> literal_inside q body -> written python m k n r d ->
    written python m k n (q :: body ++ q :: r) (inr (NStr (raw (q :: body ++ [q]))) :: d)
| wr_python k n w r d : python = true -> python_literal w (r ++ closing k) -> written python m k n r d ->
    written python m k n (w ++ r) (inr (NStr (raw w)) :: d)
| wr_comment k n c r d : target_comment m c (r ++ closing k) -> written python m k n r d ->
    written python m k n (c ++ r) (inr (NRemark (raw c)) :: d)
| wr_quotation k n o body r d : quote_opening o -> Forall permitted body -> balanced body -> written python m k n r d ->
    written python m k n (o ++ body ++ 41 :: r) (inr (NStr (raw body)) :: d)
| wr_spelled k n c t r d : spelled_construct python m c t -> written python m k n r d ->
    written python m k n (t ++ r) (inr (tree_construct c) :: d).
(** The text of a whole source *)
Definition document (python : bool) (m : skip_mode) : text -> contents -> Prop := written python m DSource level.


(** Trees without their locations *)
Definition bare_src (s : source) : source := raw (s_txt s).
Definition bare_region (r : region) : region := match r with RList l => RList (map bare_src l) | RLate => RLate end.
Definition bare_lval (l : lval) : lval := match l with LAtom a => LAtom (bare_src a) | LList l => LList (map bare_src l) end.
Fixpoint bare (x : node) : node :=
  match x with
  | NAtom s => NAtom (bare_src s)
  | NStr s => NStr (bare_src s)
  | NVar r a => NVar (bare_region r) (bare_src a)
  | NList l => NList (map bare l)
  | NEmbed e => NEmbed (bare e)
  | NApply f args named _ _ => NApply (bare f) (map bare args) (map (fun p => (bare_src (fst p), bare (snd p))) named) None 0
  | NEval a _ _ => NEval (bare a) None None
  | NLet l e f => NLet (bare_lval l) (bare e) (bare f)
  | NSet l e => NSet (bare_lval l) (bare e)
  | NLambda bs f => NLambda (map (fun b => (map bare_src (fst (fst b)), bare_src (snd (fst b)), bare (snd b))) bs) (bare f)
  | NLambdaV r a f => NLambdaV (bare_region r) (bare_src a) (bare f)
  | NCond c a e => NCond (bare c) (bare a) (bare e)
  | NInfix a _ _ => NInfix (bare a) None 0
  | NText l _ _ => NText (map bare l) 0 0
  | NPlain s i tr => NPlain (bare_src s) i tr
  | NRemark s => NRemark (bare_src s)
  | NEmit r a e => NEmit (bare_region r) (bare_src a) (bare e)
  | NMacro a ps body => NMacro (bare_src a) (map bare_src ps) body
  | _ => x
  end.

(** ** One way to write an expression, with single spaces: [show] *)
Definition closed_text (k : delim) : Prop := match k with DBlock ind => Forall blank ind | DUntil _ | DSource => False | _ => True end.
Inductive wf (python : bool) (m : skip_mode) : expr -> Prop :=
| wf_num z : wf python m (ENum z)
| wf_str q body : python = false -> q = 34 \/ q = 39 -> literal_inside q body -> wf python m (EStr q body)
| wf_python w : python = true -> python_literal w [] -> wf python m (EPy w)
| wf_quote body : Forall permitted body -> balanced body -> wf python m (EQuote body)
| wf_var v : var_ok v -> wf python m (EVar v)
| wf_list l : Forall (fun it => wf python m (snd it)) l -> wf python m (EList l)
| wf_app ev tight f args named : wf python m f ->
    (ev = false -> tight = true -> Forall (fun w => ~ begins w (show f)) keywords) ->
    Forall (fun it => wf python m (snd it) /\ (fst it = false -> opens_named (snd it) = false)) args ->
    Forall (fun it => identifier (fst it) /\ closing_tag f <> Some (fst it) /\ wf python m (snd it)) named ->
    wf python m (EApp ev tight f args named)
| wf_lambda ps body : ps <> [] -> Forall (wf_param python m) ps -> wf python m body -> is_lform body = true -> wf python m (ELambda ps body)
| wf_lambdav v body : var_ok v -> wf python m body -> is_lform body = true -> wf python m (ELambdaV v body)
| wf_let b e body : binder_ok b -> wf python m e -> wf python m body -> wf python m (ELet b e body)
| wf_cond c e1 e0 : wf python m c -> wf python m e1 -> is_former c = true -> is_former e1 = true ->
    (forall e, e0 = Some e -> wf python m e) -> wf python m (ECond c e1 e0)
| wf_text k t d : closed_text k -> written python m k level t d -> wf python m (EText k t d)
with wf_param (python : bool) (m : skip_mode) : param -> Prop :=
| wf_par late a d : Forall identifier late -> identifier a -> (forall e, d = Some e -> wf python m e) ->
    wf_param python m (Param late a d)
| wf_rest : wf_param python m Rest.
Inductive construct_ok (python : bool) (m : skip_mode) : construct -> Prop :=
| co_expr e : wf python m e -> match e with EApp _ _ _ _ _ | ELet _ _ _ | EText (DCode | DInfix) _ _ => True | _ => False end ->
    construct_ok python m (CExpr e)
| co_set b e : binder_ok b -> wf python m e -> construct_ok python m (CSet b e)
| co_emit v e : var_ok v -> (forall e0, e = Some e0 -> wf python m e0) -> construct_ok python m (CEmit v e)
| co_macro a ps body : identifier a -> Forall identifier ps -> Forall permitted body -> balanced body -> construct_ok python m (CMacro a ps body)
| co_removed body : Forall permitted body -> balanced body -> construct_ok python m (CRemoved body).
