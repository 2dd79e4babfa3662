(** * Expressions in the body of a function and what they mean *)
From Coq Require Import List NArith ZArith Bool.
From Verif Require Import PyStr Ast Final Eval EnvSpec TrimSpec EvalSpec.
Import ListNotations.
Open Scope list_scope.

(** ** Values *)
Inductive data : node -> Prop :=
| DA_int z : data (NInt z)
| DA_bool b : data (NBool b)
| DA_float t : data (NFloat t)
| DA_str s : data (NStr s)
| DA_raw t : data (NRaw t)
| DA_atom a : data (NAtom a)
| DA_plain s i : data (NPlain s i false)
| DA_list l : Forall data l -> data (NList l).
(** what a value looks like in a text *)
Inductive shown : node -> text -> Prop :=
| SH_value v u : value_text v u -> shown v u
| SH_plain s i : shown (NPlain s i false) (s_txt s)
| SH_list l us : Forall2 shown l us -> shown (NList l) (concat us).

(** ** Expressions *)
Inductive cexp :=
| CValue (v : node)                                                    (* a constant *)
| CParam (r : region) (a : source)                                     (* x *)
| CList (l : list cexp)                                                (* (a b c) *)
| CCond (c a b : cexp)                                                 (* c ? a : b *)
| CCall (f : source) (args : list cexp) (file : option text) (pos : Z) (* ($f a b), f built-in *)
| CPick (z : Z) (args : list cexp) (file : option text) (pos : Z)      (* ($2 a) *)
| CShow (E : cexp) (file : option text) (pos : Z)                      (* ($x) *)
| CInfix (ast : node) (file : option text) (pos : Z)                   (* {x + 1} *)
| CLit (s : source) (i : indent)                                       (* literal text *)
| CText (l : list cexp) (sq q : nat).                                    (* text with expressions in it *)
Fixpoint tree (E : cexp) : node :=
  match E with
  | CValue v => v
  | CParam r a => NVar r a
  | CList l => NList (map tree l)
  | CCond c a b => NCond (tree c) (tree a) (tree b)
  | CCall f args file pos => NApply (NVar (RList []) f) (map tree args) [] file pos
  | CPick z args file pos => NApply (NInt z) (map tree args) [] file pos
  | CShow E file pos => NApply (tree E) [] [] file pos
  | CInfix ast file pos => NInfix ast file pos
  | CLit s i => NPlain s i false
  | CText l sq q => NText (map tree l) sq q
  end.

(** a text without references: the same everywhere *)
Definition constant_text ec parse (ast : node) (t : text) : Prop :=
  forall e s, exists v, evals ec parse ast e s v e s /\ str_of v = Some t.
(** the built-in function [name] gives [w] for the arguments [vs], without effects *)
Definition function_gives ec (name : text) (vs : list node) (w : node) : Prop :=
  exists fn v, (forall imported, e_builtin ec imported name = Some (BFun fn)) /\
    (forall st, fn vs st = Ok (v, st)) /\ w = builtin_result v.
(** the values of those of the names that are parameters; the others are free *)
Inductive picks (free : text -> Prop) (bs : list (text * node)) : list text -> list (text * node) -> Prop :=
| PK_end : picks free bs [] []
| PK_parameter n v r l : gives bs n v -> ~ In n r -> picks free bs r l -> picks free bs (n :: r) ((n, v) :: l)
| PK_free n r l : free n -> picks free bs r l -> picks free bs (n :: r) l.
Definition applied (x : node) : Prop := match x with NApply _ _ _ _ _ => True | _ => False end.
(** a text whose pieces are the expressions [xs] with the values [vs]; [shift ind u w]:
    at the indentation [ind] the text [u] becomes [w] *)
Inductive written (shift : text -> text -> text -> Prop) : indent -> list node -> list node -> text -> Prop :=
| WR_end ind : written shift ind [] [] []
| WR_applied ind x v u w r vs t : applied x -> shown v u -> shift (ind_text ind) u w ->
    written shift IndFalse r vs t -> written shift ind (x :: r) (v :: vs) (w ++ t)
| WR_other ind x v u r vs t : ~ applied x -> shown v u ->
    written shift (indent_then ind x) r vs t -> written shift ind (x :: r) (v :: vs) (u ++ t).
Definition bare_cond (E : cexp) : Prop := match E with CCond _ _ _ => True | _ => False end.

(** ** Meaning: the value of an expression, given the values of the parameters.  Every part has
    to have a value, also the branch of a conditional that is not chosen. *)
Section Means.
Variables (ec : ectx) (parse : text -> M (list node)).
Variable shift : text -> text -> text -> Prop.
Variable free : text -> Prop.
Variable bs : list (text * node).
Inductive means : cexp -> node -> Prop :=
| ME_value v : data v -> means (CValue v) v
| ME_param r a v : gives bs (s_txt a) v -> means (CParam r a) v
| ME_list l vs : Forall2 means l vs -> means (CList l) (NList vs)
| ME_cond c a b vc va vb w : means c vc -> means a va -> means b vb -> selects vc va vb w ->
    means (CCond c a b) w
| ME_call f args file pos vs w : Forall2 means args vs -> free (s_txt f) ->
    function_gives ec (s_txt f) vs w -> data w -> means (CCall f args file pos) w
| ME_pick z args file pos vs l w : Forall2 means args vs -> indexed vs l -> element l z w -> data w ->
    means (CPick z args file pos) w
| ME_show E file pos v u : means E v -> value_text v u -> means (CShow E file pos) v
| ME_infix ast file pos t ns vals v : constant_text ec parse ast t -> e_names ec (lstrip t) = Ok ns ->
    picks free bs ns vals -> e_infix ec (lstrip t) vals = Ok v -> data (const_result v) ->
    means (CInfix ast file pos) (const_result v)
| ME_lit s i : means (CLit s i) (NPlain s i false)
| ME_text l sq q vs t : Forall2 means l vs -> Forall (fun E => ~ bare_cond E) l ->
    written shift (IndStr []) (map tree l) vs t -> means (CText l sq q) (NRaw t).
End Means.

(** a name that is neither a parameter nor a variable where the function is defined and called *)
Definition outside (ps : list text) (e0 e : env) (n : text) : Prop := ~ In n ps /\ unknown e0 n /\ unknown e n.
(** a name that has the same value where the function is defined and where it is called, and that
    no parameter hides *)
Definition known (e : env) (n : text) (v : node) : Prop :=
  exists inner f outer, innermost e inner f outer n /\ gives f n v.
Definition constant (ps : list text) (e0 e : env) (b : text * node) : Prop :=
  ~ In (fst b) ps /\ data (snd b) /\ known e0 (fst b) (snd b) /\ known e (fst b) (snd b).
(** how a text is placed at an indentation: unchanged, or moved there if indentation is trimmed *)
Definition placed (ec : ectx) (ind u w : text) : Prop := if e_trim ec then follows ind u w else w = u.
