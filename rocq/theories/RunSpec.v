(** * What a source with definitions and applications stands for

    Trees here carry no locations. *)
From Coq Require Import List NArith ZArith Bool.
From Verif Require FormatSpec.
From Verif Require Import PyStr LexSpec Ast Lex Parse Final Eval EnvSpec EvalSpec PpSpec ExprSpec CoreSpec QuoteSpec ProtectSpec.
Import ListNotations.
Open Scope list_scope.

(** ** Definitions in force, the latest first *)
Inductive entry :=
| EOpen                                                                       (* being defined *)
| EValue (v : node)
| EFunction (ps : list text) (dflt : list (text * node)) (body : node)
| ECases (p : text) (c a b : node)                                            (* \p.($ a ? c | b) *)
| EMacro (ps : list text) (body : text)
| EChain (ps : list text) (body : node).                                      (* may call functions defined before *)
Definition defs := list (text * entry).
Fixpoint mem (n : text) (l : list text) : bool := match l with [] => false | m :: r => teqb n m || mem n r end.
(** the names in [g] with their values, but for the names in [hidden] *)
Fixpoint values_in (hidden : list text) (g : defs) : list (text * node) :=
  match g with
  | [] => []
  | (n, x) :: r => match x with
                   | EValue v => if mem n hidden then [] else [(n, v)]
                   | _ => []
                   end ++ values_in (n :: hidden) r
  end.
(** Where an expression stands: in the text, behind the definitions [g], or in the body of a
    function, where only the names in [known] have a meaning and those in [bs] a value. *)
(** Or in the body of a function that may call the functions in [g], defined before it: [later] are
    the names defined since, [used] the parameters of the functions that are being applied, [params]
    those of all such functions, [bs] the values of its own parameters. *)
Inductive place :=
| InText (g : defs)
| InBody (known : list text) (bs : list (text * node))
| InChain (params later used : list text) (g : defs) (bs : list (text * node)).
Definition known_at (p : place) : list text :=
  match p with InText g => names g | InBody k _ => k | InChain params later _ g _ => params ++ later ++ names g end.
Definition values_at (p : place) : list (text * node) :=
  match p with InText g => values_in [] g | InBody _ bs => bs | InChain params later _ g bs => bs ++ values_in (params ++ later) g end.
Definition free_at (p : place) (n : text) : Prop := ~ In n (known_at p).

(** ** Functions from outside give the same wherever their arguments stand *)
Definition bare_binding (b : text * node) : text * node := (fst b, bare (snd b)).
Definition builtin_gives (ec : ectx) (f : text) (vs : list node) (w : node) : Prop :=
  forall vs', map bare vs' = vs -> exists w', function_gives ec f vs' w' /\ data w' /\ bare w' = w.
Definition python_gives (ec : ectx) (t : text) (vals : list (text * node)) (w : node) : Prop :=
  forall vals', map bare_binding vals' = vals -> exists v, e_infix ec t vals' = Ok v /\ data (const_result v) /\ bare (const_result v) = w.
Definition constant_value (v : node) : Prop := data v /\ bare v = v.
(** what a text is made of *)
Definition text_part (x : node) : Prop :=
  match x with NPlain _ _ false | NStr _ | NApply _ _ _ _ _ => True | _ => False end.

(** the parameters of the functions that may call others *)
Fixpoint chain_params (g : defs) : list text := match g with [] => [] | (_, EChain ps _) :: r => ps ++ chain_params r | _ :: r => chain_params r end.
(** none of these functions is defined anew, and none is called like one of their parameters *)
Definition chains_hold (g : defs) : Prop :=
  forall l f ps body r, g = l ++ (f, EChain ps body) :: r -> ~ In f (names l) /\ ~ In f (chain_params g).
(** no conditional; no conditional in a branch of a conditional *)
Fixpoint no_choices (x : node) : Prop :=
  let all := fix all l := match l with [] => True | x :: l => no_choices x /\ all l end in
  match x with
  | NCond _ _ _ => False
  | NList l | NText l _ _ => all l
  | NApply f l _ _ _ => no_choices f /\ all l
  | _ => True
  end.
Fixpoint choices_apart (x : node) : Prop :=
  let all := fix all l := match l with [] => True | x :: l => choices_apart x /\ all l end in
  match x with
  | NCond c a b => choices_apart c /\ no_choices a /\ no_choices b
  | NList l | NText l _ _ => all l
  | NApply f l _ _ _ => choices_apart f /\ all l
  | _ => True
  end.

(** the functions that work on their arguments in other ways than by their values *)
Definition special_forms : list text := [lit "__PASSAGE__"; lit "isatom"; lit "lazy"; lit "skip"; lit "reduce"; lit "repr"].

(** ** Values *)
Section Value.
Variable ec : ectx.
(** the expression has no value as long as [p] has none *)
Inductive needs (p : text) : node -> Prop :=
| ND_name r a : s_txt a = p -> needs p (NVar r a)
| ND_list l : Exists (needs p) l -> needs p (NList l)
| ND_cond c a b : needs p c -> needs p (NCond c a b)
| ND_apply f args : Exists (needs p) args -> needs p (NApply f args [] None 0)
| ND_python t ns : t <> [] -> e_names ec (lstrip t) = Ok ns -> In p ns -> needs p (NInfix (NText (run true t) 0 0) None 0).
(** the expression [x] at the place [p] has the value [v] *)
Inductive value : place -> node -> node -> Prop :=
| VA_constant p v : constant_value v -> value p v v
| VA_name p r a v : gives (values_at p) (s_txt a) v -> value p (NVar r a) v
(** a name without a meaning stands for itself *)
| VA_atom g a : ~ In (s_txt a) (names g) -> (forall imported, e_builtin ec imported (s_txt a) = None) ->
    ~ In (s_txt a) special_forms -> ~ In 45%N (s_txt a) -> value (InText g) (NVar (RList []) a) (NAtom a)
| VA_list p l vs : all_values p l vs -> value p (NList l) (NList vs)
| VA_cond p c a b vc va vb w : value p c vc -> value p a va -> value p b vb -> selects vc va vb w -> value p (NCond c a b) w
(** in the text only the branch that is chosen needs a value *)
| VA_choice g c a b vc x w : value (InText g) c vc -> selects vc a b x -> value (InText g) x w -> value (InText g) (NCond c a b) w
| VA_builtin p f args vs w : all_values p args vs -> free_at p (s_txt f) -> builtin_gives ec (s_txt f) vs w ->
    value p (NApply (NVar (RList []) f) args [] None 0) w
| VA_pick p z args vs l w : all_values p args vs -> indexed vs l -> element l z w -> w <> NNone -> value p (NApply (NInt z) args [] None 0) w
| VA_show p x v u : value p x v -> value_text v u -> value p (NApply x [] [] None 0) v
| VA_python p t ns vals w : t <> [] -> e_names ec (lstrip t) = Ok ns -> picks (free_at p) (values_at p) ns vals ->
    python_gives ec (lstrip t) vals w -> value p (NInfix (NText (run true t) 0 0) None 0) w
| VA_text p l vs t : Forall text_part l -> all_values p l vs -> written (placed ec) (IndStr []) l vs t -> value p (NText l 0 0) (NRaw t)
(** a call: the body with the arguments for the parameters.  In the body the names defined before
    the function have their values, unless they are defined anew since. *)
| VA_call g later f ps dflt body before r a args vs named nm bs w :
    g = later ++ (f, EFunction ps dflt body) :: before -> ~ In f (names later) -> s_txt a = f ->
    all_values (InText g) args vs -> named_value g named nm -> NoDup (names nm) -> incl (names nm) ps -> binds nm dflt ps vs bs ->
    value (InBody (ps ++ names g) (bs ++ values_in (ps ++ f :: names later) before)) body w ->
    value (InText g) (NApply (NVar r a) args named None 0) w
(** a function that decides by its parameter: the branch that is chosen is evaluated when the function
    is called, with the definitions in force there; it may call the function again *)
| VA_cases g later f p c a b before r h x v vc y w u :
    g = later ++ (f, ECases p c a b) :: before -> ~ In f (names later) -> s_txt h = f -> value (InText g) x v ->
    value (InBody (p :: names g) ((p, v) :: values_in (p :: f :: names later) before)) c vc ->
    selects vc a b y -> value (InText ((p, EValue v) :: g)) y w -> value_text w u ->
    value (InText g) (NApply (NVar r h) [x] [] None 0) w
(** a call of a function that may call others; and a call inside its body, where an argument may be
    handed on before its own parameters have values: so a parameter of the called function must not
    have the name of one of a function that is being applied, unless it gets the parameter of this name *)
| VA_chain g later f ps body before a args vs w :
    g = later ++ (f, EChain ps body) :: before -> chains_hold g -> s_txt a = f -> all_values (InText g) args vs -> length ps = length args ->
    choices_apart body -> value (InChain (chain_params g) (names later ++ [f]) ps before (combine ps vs)) body w ->
    value (InText g) (NApply (NVar (RList []) a) args [] None 0) w
| VA_use params later used g bs l f ps body before a args vs w :
    g = l ++ (f, EChain ps body) :: before -> s_txt a = f -> all_values (InChain params later used g bs) args vs -> length ps = length args ->
    Forall2 (fun p x => In p used -> exists r b, x = NVar r b /\ s_txt b = p) ps args -> Forall choices_apart args -> choices_apart body ->
    value (InChain params (later ++ names l ++ [f]) (ps ++ used) before (combine ps vs)) body w ->
    value (InChain params later used g bs) (NApply (NVar (RList []) a) args [] None 0) w
| VA_let g l x es y w : defines g l x es -> value (InText (es ++ g)) y w -> value (InText g) (NLet l x y) w
with all_values : place -> list node -> list node -> Prop :=
| AV_end p : all_values p [] []
| AV_more p x v l vs : value p x v -> all_values p l vs -> all_values p (x :: l) (v :: vs)
with named_value : defs -> list (source * node) -> list (text * node) -> Prop :=
| NV_end g : named_value g [] []
| NV_more g a x v l nm : value (InText g) x v -> named_value g l nm -> named_value g ((a, x) :: l) ((s_txt a, v) :: nm)
(** the definition of [l] by [x] behind the definitions [g] *)
with defines : defs -> lval -> node -> list (text * entry) -> Prop :=
| DF_value g a x v : value (InText ((s_txt a, EOpen) :: g)) x v -> defines g (LAtom a) x [(s_txt a, EValue v)]
| DF_values g l x vs : NoDup (map s_txt l) -> length l = length vs ->
    value (InText (map (fun a => (s_txt a, EOpen)) l ++ g)) x (NList vs) ->
    defines g (LList l) x (combine (map s_txt l) (map EValue vs))
(** a function; its body has a value for some arguments *)
| DF_function g a bd ps dflt body bs w : parameters ((s_txt a, EOpen) :: g) bd ps dflt -> NoDup ps -> ps <> [] ->
    names bs = ps -> Forall (fun b => constant_value (snd b)) bs ->
    value (InBody (ps ++ s_txt a :: names g) (bs ++ values_in (ps ++ [s_txt a]) g)) body w ->
    defines g (LAtom a) (NLambda bd body) [(s_txt a, EFunction ps dflt body)]
(** a function of one parameter that decides by it; its condition has a value for some argument *)
| DF_cases g n q c a b v vc : s_txt q <> lit "..." -> s_txt q <> lit "__va_args__" -> constant_value v -> needs (s_txt q) c ->
    value (InBody (s_txt q :: s_txt n :: names g) ((s_txt q, v) :: values_in [s_txt q; s_txt n] g)) c vc ->
    defines g (LAtom n) (NLambda [([], q, NNone)] (NApply (NCond c a b) [] [] None 0)) [(s_txt n, ECases (s_txt q) c a b)]
(** a function that may call functions defined before; its body has a value for some arguments *)
| DF_chain g a bd ps dflt body vs w : parameters ((s_txt a, EOpen) :: g) bd ps dflt -> NoDup ps -> ps <> [] -> ~ In (lit "__va_args__") ps ->
    length ps = length vs -> Forall constant_value vs -> choices_apart body -> chains_hold ((s_txt a, EChain ps body) :: g) ->
    value (InChain (ps ++ chain_params g) [s_txt a] ps g (combine ps vs)) body w ->
    defines g (LAtom a) (NLambda bd body) [(s_txt a, EChain ps body)]
with parameters : defs -> list (list source * source * node) -> list text -> list (text * node) -> Prop :=
| PA_end g : parameters g [] [] []
| PA_plain g a bd ps dflt : parameters g bd ps dflt -> parameters g (([], a, NNone) :: bd) (param_name a :: ps) dflt
| PA_default g a d v bd ps dflt : value (InText g) d v -> parameters g bd ps dflt ->
    parameters g (([], a, d) :: bd) (param_name a :: ps) ((s_txt a, v) :: dflt).

(** ** The text that a source stands for *)
Definition python_space (c : char) : Prop := py_isspace c = true.
(** white space at the front of a run is lost if it is marked for that *)
Definition front_cut (cut : bool) (t w : text) : Prop :=
  if e_trim ec && cut then exists g, t = g ++ w /\ Forall python_space g /\ stops_at python_space w else w = t.
(** a string and its text, and the text without its quotes *)
Definition string_text (v : node) (u : text) : Prop := v = NRaw u \/ exists s, v = NStr s /\ u = s_txt s.
Inductive unquoted : text -> text -> Prop :=
| UQ_quoted q w t : quote q -> denotes (inside q) w t -> unquoted (q :: w ++ [q]) t
| UQ_plain w t : (forall q r, w = q :: r -> ~ quote q) -> denotes ascii w t -> unquoted w t.
(** [u] is [w] without the white space around it *)
Definition inner (w u : text) : Prop := exists g h, w = g ++ u ++ h /\ Forall python_space g /\ Forall python_space h /\
  (forall c r, u = c :: r -> ~ python_space c) /\ (forall r c, u = r ++ [c] -> ~ python_space c).
(** the source that a value to be evaluated holds: a text as it is; a string without its quotes
    and the white space around, as an application *)
Inductive code_of : node -> text -> Prop :=
| CO_text t : code_of (NRaw t) t
| CO_application s w u : unquoted (s_txt s) w -> inner w u -> begins (lit "($") u -> code_of (NStr s) u
| CO_inside s w u : unquoted (s_txt s) w -> inner w u -> ~ begins (lit "($") u -> code_of (NStr s) (lit "($" ++ u ++ lit ")").
(** what a run tells the shell: the name of the output, if the source sets it, and whether it asks
    for another pass *)
Record feedback := Feedback { f_output : option text; f_repeat : bool }.
(** What the call of a macro, or the evaluation of a text, leaves in the text: nothing, a text, pieces that stand in its place
    and whose definitions hold in the rest of the text, or a macro for the rest of the text *)
Inductive outcome :=
| ONothing
| OText (t : text)
| OPieces (l : list node)
| OMacro (name : text) (ps : list text) (body : text).
Definition a_definition (x : node) : Prop := match x with NSet _ _ => True | _ => False end.
Definition an_application (x : node) : bool := match x with NApply _ _ _ _ _ => true | _ => false end.
Definition has_value (x : node) : Prop := match x with NApply _ _ _ _ _ | NLet _ _ _ => True | _ => False end.
Definition skips (g : defs) (a : source) : Prop :=
  s_txt a = lit "skip" /\ ~ In (s_txt a) (names g) /\ forall imported, e_builtin ec imported (s_txt a) = None.
(** [page g ind fb l t fb']: behind the definitions [g], at the indentation [ind], the pieces [l]
    become [t], and turn the feedback [fb] into [fb'] *)
Inductive page : defs -> indent -> feedback -> list node -> text -> feedback -> Prop :=
| PG_end g ind fb : page g ind fb [] [] fb
| PG_run g ind fb s i cut r w t fb' : front_cut cut (s_txt s) w -> page g (indent_then ind (NPlain s i cut)) fb r t fb' ->
    page g ind fb (NPlain s i cut :: r) (w ++ t) fb'
| PG_string g ind fb s r t fb' : page g IndFalse fb r t fb' -> page g ind fb (NStr s :: r) (s_txt s ++ t) fb'
| PG_comment g ind fb s r t fb' : page g IndFalse fb r t fb' -> page g ind fb (NRemark s :: r) (s_txt s ++ t) fb'
| PG_removed g ind fb r t fb' : page g ind fb (trimmed_next ind r) t fb' -> page g ind fb (NComment :: r) t fb'
| PG_applied g ind fb f args named v u w r t fb' : value (InText g) (NApply f args named None 0) v -> shown v u ->
    placed ec (ind_text ind) u w -> page g IndFalse fb r t fb' -> page g ind fb (NApply f args named None 0 :: r) (w ++ t) fb'
| PG_code g ind fb l u fb1 r t fb' : page g (IndStr []) fb l u fb1 -> page g IndFalse fb1 r t fb' -> page g ind fb (NText l 0 0 :: r) (u ++ t) fb'
| PG_let g ind fb l x y v u r t fb' : value (InText g) (NLet l x y) v -> shown v u ->
    page g IndFalse fb r t fb' -> page g ind fb (NLet l x y :: r) (u ++ t) fb'
| PG_set g ind fb l x es y r t fb' : ~ In (lit "__OUTPUT_FILE__") (names es) -> defines g l x es ->
    page (es ++ g) ind fb (trimmed_next ind (y :: r)) t fb' -> page g ind fb (NSet l x :: y :: r) t fb'
| PG_set_last g ind fb l x es : ~ In (lit "__OUTPUT_FILE__") (names es) -> defines g l x es -> page g ind fb [NSet l x] [] fb
(** the name of the output is set *)
| PG_output g ind o rep a x v u n r t fb' : s_txt a = lit "__OUTPUT_FILE__" -> value (InText g) x v -> string_text v u -> unquoted u n ->
    page g ind (Feedback (Some n) rep) r t fb' -> page g ind (Feedback o rep) (NSet (LAtom a) x :: r) t fb'
(** a name stands for the element of the list that belongs to the pass *)
| PG_passage g ind o rep a b x vs k v y r t fb' : s_txt a <> lit "__OUTPUT_FILE__" -> s_txt b = lit "__PASSAGE__" ->
    s_txt a <> s_txt b -> ~ In (s_txt b) (names g) -> (forall imported, e_builtin ec imported (s_txt b) = None) ->
    value (InText ((s_txt a, EOpen) :: g)) x (NList vs) -> e_passage ec = Z.of_nat k -> nth_error vs k = Some v ->
    page ((s_txt a, EValue v) :: g) ind (Feedback o (Nat.ltb (S k) (length vs))) (trimmed_next ind (y :: r)) t fb' ->
    page g ind (Feedback o rep) (NSet (LAtom a) (NApply (NVar (RList []) b) [x] [] None 0) :: y :: r) t fb'
| PG_macro g ind fb a ps body y r t fb' : NoDup (map s_txt ps) ->
    page ((s_txt a, EMacro (map s_txt ps) body) :: g) ind fb (trimmed_next ind (y :: r)) t fb' -> page g ind fb (NMacro a ps body :: y :: r) t fb'
| PG_macro_last g ind fb a ps body : NoDup (map s_txt ps) -> page g ind fb [NMacro a ps body] [] fb
| PG_nothing g ind fb x fb1 r t fb' : called g fb x ONothing fb1 -> page g ind fb1 r t fb' -> page g ind fb (x :: r) t fb'
| PG_called g ind fb x u fb1 w r t fb' : called g fb x (OText u) fb1 -> (if an_application x then placed ec (ind_text ind) u w else w = u) ->
    page g IndFalse fb1 r t fb' -> page g ind fb (x :: r) (w ++ t) fb'
| PG_pieces g ind fb x l fb1 r t fb' : called g fb x (OPieces l) fb1 -> page g ind fb1 (indented ind l ++ r) t fb' -> page g ind fb (x :: r) t fb'
| PG_made g ind fb x a ps body fb1 y r t fb' : called g fb x (OMacro a ps body) fb1 ->
    page ((a, EMacro ps body) :: g) ind fb1 (trimmed_next ind (y :: r)) t fb' -> page g ind fb (x :: y :: r) t fb'
| PG_made_last g ind fb x a ps body fb1 : called g fb x (OMacro a ps body) fb1 -> page g ind fb [x] [] fb1
(** where an imported file begins and ends *)
| PG_begin g ind fb r t fb' : page g ind fb r t fb' -> page g ind fb (NImportBegin :: r) t fb'
| PG_finish g ind fb r t fb' : page g ind fb r t fb' -> page g ind fb (NImportEnd :: r) t fb'
(** ($skip): the rest of the file is left out *)
| PG_skip g ind fb a m l t fb' : skips g a -> complete m -> page g ind fb l t fb' ->
    page g ind fb (NApply (NVar (RList []) a) [] [] None 0 :: m ++ NImportEnd :: l) t fb'
| PG_skip_all g ind fb a r : skips g a -> never_closed r -> page g ind fb (NApply (NVar (RList []) a) [] [] None 0 :: r) [] fb
(** a call of a macro: its text, with the arguments for the parameters, is read as a source *)
with called : defs -> feedback -> node -> outcome -> feedback -> Prop :=
| CA_call g later m ps body before fb r a args vs us u c o fb' :
    g = later ++ (m, EMacro ps body) :: before -> ~ In m (names later) -> s_txt a = m -> ~ In (lit "__va_args__") ps ->
    all_values (InText g) args vs -> Forall2 FormatSpec.inserts vs us -> length us = length ps ->
    FormatSpec.replaced_in_turn (combine ps us) body u ->
    document (c_python (e_parse ec)) (c_skip (e_parse ec)) u c -> (c_python (e_parse ec) = true -> no_magic is_word u) ->
    read_pieces g fb (runs true [] c) o fb' ->
    called g fb (NApply (NVar r a) args [] None 0) o fb'
(** a text to be evaluated *)
| CA_eval g fb x v u c o fb' : value (InText g) x v -> code_of v u ->
    document (c_python (e_parse ec)) (c_skip (e_parse ec)) u c -> (c_python (e_parse ec) = true -> no_magic is_word u) ->
    read_pieces g fb (runs true [] c) o fb' ->
    called g fb (NEval x None None) o fb'
with read_pieces : defs -> feedback -> list node -> outcome -> feedback -> Prop :=
| RP_nothing g fb : read_pieces g fb [] ONothing fb
| RP_definition g fb l : Exists a_definition l -> read_pieces g fb l (OPieces l) fb
| RP_many g fb x y l t fb' : Forall (fun z => ~ a_definition z) (x :: y :: l) -> page g (IndStr []) fb (x :: y :: l) t fb' ->
    read_pieces g fb (x :: y :: l) (OText t) fb'
| RP_run g fb s i cut w : front_cut cut (s_txt s) w -> read_pieces g fb [NPlain s i cut] (OText w) fb
| RP_string g fb s : read_pieces g fb [NStr s] (OText (s_txt s)) fb
| RP_comment g fb s : read_pieces g fb [NRemark s] (OText (s_txt s)) fb
| RP_value g fb x v u : has_value x -> value (InText g) x v -> shown v u -> read_pieces g fb [x] (OText u) fb
| RP_called g fb x o fb' : called g fb x o fb' -> read_pieces g fb [x] o fb'
| RP_macro g fb a ps body : NoDup (map s_txt ps) -> read_pieces g fb [NMacro a ps body] (OMacro (s_txt a) (map s_txt ps) body) fb.
End Value.

(** The indentation at the front of a source of which [kept] stands before it *)
Definition behind (kept : text) : indent := match kept with [] => IndStr [] | _ => IndFalse end.
