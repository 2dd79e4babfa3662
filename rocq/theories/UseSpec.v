(** * Functions whose bodies call other functions, and what such calls mean *)
From Coq Require Import List NArith ZArith Bool.
From Verif Require Import PyStr Ast Final Eval EnvSpec TrimSpec EvalSpec CoreSpec.
Import ListNotations.
Open Scope list_scope.

(** ** Expressions: those of CoreSpec, and calls of functions defined before *)
Inductive uexp :=
| UValue (v : node)                                                    (* a constant *)
| UName (r : region) (a : source)                                      (* x *)
| UList (l : list uexp)                                                (* (a b c) *)
| UCond (c a b : uexp)                                                 (* c ? a : b *)
| UCall (f : source) (args : list uexp) (file : option text) (pos : Z) (* ($f a b), f built-in *)
| UPick (z : Z) (args : list uexp) (file : option text) (pos : Z)      (* ($2 a) *)
| UShow (E : uexp) (file : option text) (pos : Z)                      (* ($x) *)
| UInfix (ast : node) (t : text) (file : option text) (pos : Z)        (* {x + 1}, of the text [t] *)
| ULit (s : source) (i : indent)                                       (* literal text *)
| UText (l : list uexp) (sq q : nat)                                   (* text with expressions in it *)
| UUse (f : source) (args : list uexp) (file : option text) (pos : Z). (* ($f a b), f defined before *)
Fixpoint utree (E : uexp) : node :=
  match E with
  | UValue v => v
  | UName r a => NVar r a
  | UList l => NList (map utree l)
  | UCond c a b => NCond (utree c) (utree a) (utree b)
  | UCall f args file pos | UUse f args file pos => NApply (NVar (RList []) f) (map utree args) [] file pos
  | UPick z args file pos => NApply (NInt z) (map utree args) [] file pos
  | UShow E file pos => NApply (utree E) [] [] file pos
  | UInfix ast _ file pos => NInfix ast file pos
  | ULit s i => NPlain s i false
  | UText l sq q => NText (map utree l) sq q
  end.
(** no conditional; no conditional in a branch of a conditional.  *)
Fixpoint no_choice (E : uexp) : Prop :=
  let all := fix all l := match l with [] => True | E :: l => no_choice E /\ all l end in
  match E with
  | UCond _ _ _ => False
  | UList l | UCall _ l _ _ | UPick _ l _ _ | UText l _ _ | UUse _ l _ _ => all l
  | UShow E _ _ => no_choice E
  | _ => True
  end.
Fixpoint simple_choices (E : uexp) : Prop :=
  let all := fix all l := match l with [] => True | E :: l => simple_choices E /\ all l end in
  match E with
  | UCond c a b => simple_choices c /\ no_choice a /\ no_choice b
  | UList l | UCall _ l _ _ | UPick _ l _ _ | UText l _ _ | UUse _ l _ _ => all l
  | UShow E _ _ => simple_choices E
  | _ => True
  end.
(** a function: its parameters, its body, and the variables its body refers to *)
Record ufun := Fun { f_params : list text; f_body : uexp; f_known : list (text * node) }.

(** an expression that does not stand in a text by itself *)
Definition unplaced (E : uexp) : Prop := match E with UCond _ _ _ | UName _ _ => True | _ => False end.
(** the expression is the name [p] *)
Definition is_name (p : text) (E : uexp) : Prop := match E with UName _ a => s_txt a = p | _ => False end.

(** ** Meaning *)
Section Means.
Variables (ec : ectx) (parse : text -> M (list node)).
Variable shift : text -> text -> text -> Prop.
(** names of nothing, and names that are parameters of functions *)
Variables free parameter : text -> Prop.
(** the values of the names of a formula *)
Inductive upicks (gs bs : list (text * node)) : list text -> list (text * node) -> Prop :=
| UP_end : upicks gs bs [] []
| UP_parameter n v r l : gives bs n v -> ~ In n r -> upicks gs bs r l -> upicks gs bs (n :: r) ((n, v) :: l)
| UP_known n v r l : ~ parameter n -> gives gs n v -> ~ In n r -> upicks gs bs r l -> upicks gs bs (n :: r) ((n, v) :: l)
| UP_free n r l : free n -> upicks gs bs r l -> upicks gs bs (n :: r) l.
(** [umeans fs used gs bs E v]: with the functions [fs] (the last one first), the variables [gs]
    and the parameters [bs], the expression [E] has the value [v].
    [used]: the parameters of the functions that are being applied.  An argument may be handed on
    before its own parameters are known.  So a function that is called must not have one of these
    names among its parameters, unless it gets the parameter of this name.  A conditional in a
    branch of a conditional may be looked at before its parameters are known: excluded. *)
Inductive umeans : list (text * ufun) -> list text -> list (text * node) -> list (text * node) -> uexp -> node -> Prop :=
| UM_value fs used gs bs v : data v -> umeans fs used gs bs (UValue v) v
| UM_parameter fs used gs bs r a v : gives bs (s_txt a) v -> umeans fs used gs bs (UName r a) v
| UM_known fs used gs bs r a v : ~ parameter (s_txt a) -> gives gs (s_txt a) v -> umeans fs used gs bs (UName r a) v
| UM_list fs used gs bs l vs : Forall2 (umeans fs used gs bs) l vs -> umeans fs used gs bs (UList l) (NList vs)
| UM_cond fs used gs bs c a b vc va vb w : umeans fs used gs bs c vc -> umeans fs used gs bs a va -> umeans fs used gs bs b vb ->
    selects vc va vb w -> umeans fs used gs bs (UCond c a b) w
| UM_call fs used gs bs f args file pos vs w : Forall2 (umeans fs used gs bs) args vs -> free (s_txt f) ->
    function_gives ec (s_txt f) vs w -> data w -> umeans fs used gs bs (UCall f args file pos) w
| UM_pick fs used gs bs z args file pos vs l w : Forall2 (umeans fs used gs bs) args vs -> indexed vs l -> element l z w -> data w ->
    umeans fs used gs bs (UPick z args file pos) w
| UM_show fs used gs bs E file pos v u : umeans fs used gs bs E v -> value_text v u -> umeans fs used gs bs (UShow E file pos) v
| UM_infix fs used gs bs ast t file pos ns vals v : constant_text ec parse ast t -> e_names ec (lstrip t) = Ok ns ->
    upicks gs bs ns vals -> e_infix ec (lstrip t) vals = Ok v -> data (const_result v) ->
    umeans fs used gs bs (UInfix ast t file pos) (const_result v)
| UM_lit fs used gs bs s i : umeans fs used gs bs (ULit s i) (NPlain s i false)
| UM_text fs used gs bs l sq q vs t : Forall2 (umeans fs used gs bs) l vs -> Forall (fun E => ~ unplaced E) l ->
    written shift (IndStr []) (map utree l) vs t -> umeans fs used gs bs (UText l sq q) (NRaw t)
| UM_use fs used gs bs f args file pos vs w later F before : fs = later ++ (s_txt f, F) :: before ->
    Forall2 (umeans fs used gs bs) args vs -> List.length (f_params F) = List.length args ->
    Forall2 (fun p A => In p used -> is_name p A) (f_params F) args ->
    Forall simple_choices args -> simple_choices (f_body F) ->
    umeans before (f_params F ++ used) (f_known F) (combine (f_params F) vs) (f_body F) w ->
    umeans fs used gs bs (UUse f args file pos) w.
End Means.

(** ** Definitions in force *)
(** [in_force fs e]: the variables of [e] are such that each function of [fs] was defined where
    those before it were in force, its name still means this function, and the variables it refers
    to still have their values *)
Inductive in_force ec parse (free parameter : text -> Prop) : list (text * ufun) -> env -> Prop :=
| IF_none e : (forall n, free n -> unknown e n /\ ~ parameter n) -> in_force ec parse free parameter [] e
| IF_function f F fs e e0 s0 bd dflt c :
    in_force ec parse free parameter fs e0 -> in_force ec parse free parameter fs e ->
    Forall (fun b => data (snd b) /\ known e0 (fst b) (snd b) /\ known e (fst b) (snd b)) (f_known F) ->
    declares ec parse e0 s0 bd (f_params F) dflt -> evals ec parse (NLambda bd (utree (f_body F))) e0 s0 c e0 s0 ->
    f_params F <> [] -> NoDup (f_params F) -> ~ In va_args (f_params F) -> Forall parameter (f_params F) ->
    ~ parameter f -> ~ In f (names fs) -> known e f c ->
    in_force ec parse free parameter ((f, F) :: fs) e.
