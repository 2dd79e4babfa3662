(** * Vocabulary for the statements about evaluation *)
From Coq Require Import List NArith ZArith Bool.
From Verif Require Import PyStr Ast Eval EnvSpec.
Import ListNotations.

(** Evaluating [x] finishes with the outcome [r] (a value with the final environment
    and state, or an exception) under some recursion budget *)
Definition finishes (ec : ectx) (parse : text -> M (list node)) (x : node) (e : env) (s : yst)
  (r : res (node * env * yst)) : Prop :=
  r <> Fuel /\ exists n, yueval ec parse n x e s = r.
(** Evaluating [x] gives [v] *)
Definition evals ec parse (x : node) (e : env) (s : yst) (v : node) (e' : env) (s' : yst) : Prop :=
  exists n, yueval ec parse n x e s = Ok (v, e', s').
(** Two expressions, each with its environment and state, behave alike: whatever one
    finishes with, the other finishes with *)
Definition same_outcomes ec parse x e s x' e' s' : Prop :=
  forall r, finishes ec parse x e s r <-> finishes ec parse x' e' s' r.

(** The names known in each scope, in order *)
Definition scopes (e : env) : list (list text) := map names e.

(** Every [($emit v ..)] in the node is of a variable in [allow] *)
Section EmitsOnly.
Variable allow : text -> bool.
Fixpoint emits_only (x : node) : bool :=
  match x with
  | NEmit _ v a => allow (s_txt v) && emits_only a
  | NList l | NT l _ | NText l _ _ => forallb emits_only l
  | NApply fn args named _ _ =>
      emits_only fn && forallb emits_only args && forallb (fun e => match e with (_, b) => emits_only b end) named
  | NEval a _ _ | NInfix a _ _ | NEmbed a | NSet _ a | NTrim a _ | NLazy a | NLambdaV _ _ a => emits_only a
  | NLet _ a b => emits_only a && emits_only b
  | NLambda b f => forallb (fun e => match e with (_, d) => emits_only d end) b && emits_only f
  | NCond a b c | NCondClosure a b c => emits_only a && emits_only b && emits_only c
  | NLClosure f env _ dflt =>
      emits_only f && forallb (fun e => match e with (_, b) => emits_only b end) env
      && forallb (fun e => match e with (_, b) => emits_only b end) dflt
  | NMClosure _ env _ _ | NInfixClosure _ env _ _ | NEnv env =>
      forallb (fun e => match e with (_, b) => emits_only b end) env
  | NSetClosure f env => emits_only f && forallb (fun e => match e with (_, b) => emits_only b end) env
  | _ => true
  end.
Definition emits_only_frame (f : frame) : bool := forallb (fun e => match e with (_, b) => emits_only b end) f.
Definition emits_only_env (e : env) : bool := forallb emits_only_frame e.
(** The parser, the built-ins and the Python expressions do not introduce others *)
Definition emits_only_ctx (ec : ectx) (parse : text -> M (list node)) : Prop :=
  (forall k s l s', parse k s = Ok (l, s') -> forallb emits_only l = true) /\
  (forall sc a v, e_builtin ec sc a = Some (BConst v) -> emits_only v = true) /\
  (forall sc a f args s v s', e_builtin ec sc a = Some (BFun f) -> forallb emits_only args = true ->
     f args s = Ok (v, s') -> emits_only v = true) /\
  (forall t f v, emits_only_frame f = true -> e_infix ec t f = Ok v -> emits_only v = true).
End EmitsOnly.
(** [e'] differs from [e] at most in the values of variables in [allow] *)
Definition frame_agrees (allow : text -> bool) (f f' : frame) : Prop :=
  Forall2 (fun x y => fst x = fst y /\ (allow (fst x) = true \/ snd x = snd y)) f f'.
Definition env_agrees (allow : text -> bool) (e e' : env) : Prop := Forall2 (frame_agrees allow) e e'.

(** ** Truth values: which values of a condition count as false, which as true *)
Definition zero_digits (t : text) : Prop :=
  exists mantissa exponent, t = mantissa ++ exponent /\
    Forall (fun c => ~ (49 <= c <= 57)%N /\ c <> 101%N /\ c <> 69%N) mantissa /\
    match exponent with [] => True | c :: _ => c = 101%N \/ c = 69%N end.
Definition false_value (v : node) : Prop :=
  v = NNone \/ v = NInt 0 \/ v = NBool false \/ str_of v = Some [] \/ list_of v = Some [] \/
  exists t, v = NFloat t /\ zero_digits t.
(** [a ? c | b]: the value of the condition is a term, and selects [l] *)
Definition selects (v a b l : node) : Prop :=
  is_term v = true /\ ((~ false_value v /\ l = a) \/ (false_value v /\ l = b)).

(** ** Lists *)
(** What an element that evaluates to [v] contributes to the list *)
Inductive contributes : node -> list node -> Prop :=
| C_nothing : contributes NNone []
| C_splice_list l : contributes (NEmbed (NList l)) l
| C_splice_text l i : contributes (NEmbed (NT l i)) l
| C_open_var r a : contributes (NEmbed (NVar r a)) [NEmbed (NVar r a)]
| C_open_apply f a n x p : contributes (NEmbed (NApply f a n x p)) [NEmbed (NApply f a n x p)]
| C_splice_other v : list_of v = None ->
    match v with NVar _ _ | NApply _ _ _ _ _ => False | _ => True end -> contributes (NEmbed v) [v]
| C_value v : match v with NNone | NEmbed _ => False | _ => True end -> contributes v [v].
(** A function name in a list is noted as a possible hazard *)
Definition noted (v : node) (s : yst) : yst :=
  match v with NBuiltin a | NSpecial a => add_hazard a s | _ => s end.
Inductive list_evals ec parse : list node -> env -> yst -> list node -> env -> yst -> Prop :=
| LE_nil e s : list_evals ec parse [] e s [] e s
| LE_cons x r e s v e1 s1 c w e2 s2 :
    evals ec parse x e s v e1 s1 -> contributes v c ->
    list_evals ec parse r e1 (noted v s1) w e2 s2 ->
    list_evals ec parse (x :: r) e s (c ++ w) e2 s2.

(** ** Mapping: [x] goes through the functions [fs] left to right *)
Inductive pipes ec parse : list node -> node -> env -> yst -> node -> env -> yst -> Prop :=
| PI_nil x e s : pipes ec parse [] x e s x e s
| PI_cons f fs x e s y e1 s1 z e2 s2 :
    evals ec parse (NApply f [x] [] None 0) e s y e1 s1 ->
    pipes ec parse fs y e1 s1 z e2 s2 ->
    pipes ec parse (f :: fs) x e s z e2 s2.
(** one result per element, in order; [None] results vanish *)
Inductive maps ec parse (fs : list node) : list node -> env -> yst -> list node -> env -> yst -> Prop :=
| MA_nil e s : maps ec parse fs [] e s [] e s
| MA_drop x l e s e1 s1 w e2 s2 :
    pipes ec parse fs x e s NNone e1 s1 -> maps ec parse fs l e1 s1 w e2 s2 ->
    maps ec parse fs (x :: l) e s w e2 s2
| MA_keep x l e s y e1 s1 w e2 s2 :
    pipes ec parse fs x e s y e1 s1 -> y <> NNone -> maps ec parse fs l e1 s1 w e2 s2 ->
    maps ec parse fs (x :: l) e s (y :: w) e2 s2.

(** ** Modules: a sequence of items in which every import is complete *)
Inductive complete : list node -> Prop :=
| CO_nil : complete []
| CO_item x l : x <> NImportBegin -> x <> NImportEnd -> complete l -> complete (x :: l)
| CO_import m l : complete m -> complete l -> complete (NImportBegin :: m ++ NImportEnd :: l).
(** the module that [r] is the rest of has no end in [r] *)
Definition never_closed (r : list node) : Prop :=
  forall m l, r = m ++ NImportEnd :: l -> ~ complete m.

(** ** Text blocks *)
(** After a comment that stands at the start of a line (the indentation in force is
    a string) the white space at the front of the following text is trimmed *)
Definition trimmed_next (ind : indent) (rest : list node) : list node :=
  match ind, rest with
  | IndStr _, NPlain s i _ :: r => NPlain s i true :: r
  | _, _ => rest
  end.
(** What a value adds to the text *)
Inductive piece : node -> node -> Prop :=
| PC_value v : match v with
               | NNone | NSkip | NImportBegin | NImportEnd | NEnv _ | NEmbed _ => False
               | _ => True end -> piece v v
| PC_embed v : match v with NT _ _ => False | _ => True end -> piece (NEmbed v) v.
(** The indentation in force after an item *)
Definition indent_then (ind : indent) (x : node) : indent :=
  match x with
  | NPlain _ IndNone _ => ind
  | NPlain _ i _ => i
  | _ => IndFalse
  end.
(** the pieces of an evaluated text *)
Definition pieces_of (v : node) : list node := match list_of v with Some l => l | None => [v] end.
(** The value of an application is indented like the application *)
Definition as_applied (ind : indent) (x p : node) : node :=
  match x with NApply _ _ _ _ _ => NTrim p (ind_text ind) | _ => p end.
(** [i] stands behind every line end of the text (a carriage return with its line feed is
    one line end); behind a line end that is the last character only if it is a line
    feed or a carriage return *)
Fixpoint behind_lines (i t : text) : text :=
  match t with
  | [] => []
  | c :: r =>
      let here := match r with
                  | [] => ((c =? 10) || (c =? 13))%N
                  | d :: _ => py_isbreak c && negb ((c =? 13) && (d =? 10))%N
                  end in
      c :: (if here then i else []) ++ behind_lines i r
  end.
(** an embedded text takes the indentation of the place where it is embedded *)
Definition set_in (i : text) (x : node) : node :=
  match x with
  | NPlain s IndNone tr => x
  | NPlain s (IndStr j) tr => NPlain (raw (behind_lines i (s_txt s))) (IndStr (i ++ j)) tr
  | NPlain s IndFalse tr => NPlain (raw (behind_lines i (s_txt s))) IndFalse tr
  | _ => x
  end.
Definition indented (ind : indent) (l : list node) : list node :=
  match ind with
  | IndStr (c :: i) => map (set_in (c :: i)) l
  | _ => l
  end.
Inductive block ec parse : indent -> list node -> env -> yst -> list node -> env -> yst -> Prop :=
| BL_end ind e s : block ec parse ind [] e s [] e s
| BL_comment ind rest e s w e' s' :
    block ec parse ind (trimmed_next ind rest) e s w e' s' ->
    block ec parse ind (NComment :: rest) e s w e' s'
| BL_nothing ind x rest e s v e1 s1 w e' s' :
    x <> NComment -> evals ec parse x e s v e1 s1 -> v = NNone \/ v = NImportBegin \/ v = NImportEnd ->
    block ec parse ind rest e1 s1 w e' s' ->
    block ec parse ind (x :: rest) e s w e' s'
| BL_skip ind x m l e s e1 s1 w e' s' :
    x <> NComment -> evals ec parse x e s NSkip e1 s1 -> complete m ->
    block ec parse ind l e1 s1 w e' s' ->
    block ec parse ind (x :: m ++ NImportEnd :: l) e s w e' s'
| BL_skip_all ind x r e s e1 s1 :
    x <> NComment -> evals ec parse x e s NSkip e1 s1 -> never_closed r ->
    block ec parse ind (x :: r) e s [] e1 s1
| BL_scope ind x y rest e s f e1 s1 v e' s' :
    x <> NComment -> evals ec parse x e s (NEnv f) e1 s1 ->
    evals ec parse (NSetClosure (NT (trimmed_next ind (y :: rest)) ind) f) e1 s1 v e' s' ->
    block ec parse ind (x :: y :: rest) e s [v] e' s'
| BL_scope_end ind x e s f e1 s1 :
    x <> NComment -> evals ec parse x e s (NEnv f) e1 s1 ->
    block ec parse ind [x] e s [] e1 (warn "useless assign" s1)
| BL_embed ind x rest e s l i e1 s1 v e' s' :
    x <> NComment -> evals ec parse x e s (NEmbed (NT l i)) e1 s1 ->
    evals ec parse (NT (indented ind l ++ rest) ind) e1 s1 v e' s' ->
    block ec parse ind (x :: rest) e s (pieces_of v) e' s'
| BL_value ind x rest e s v e1 s1 p w e' s' :
    x <> NComment -> evals ec parse x e s v e1 s1 -> piece v p ->
    block ec parse (indent_then ind x) rest e1 s1 w e' s' ->
    block ec parse ind (x :: rest) e s (as_applied ind x p :: w) e' s'.

(** ** Subscripts *)
(** what is indexed: the elements of a single list argument, or else the arguments *)
Inductive indexed : list node -> list node -> Prop :=
| IX_list a l : list_of a = Some l -> indexed [a] l
| IX_one a : list_of a = None -> indexed [a] [a]
| IX_many a b r : indexed (a :: b :: r) (a :: b :: r).
(** the element number [z] of [l]; negative numbers count from the end; nothing beyond the end *)
Inductive element (l : list node) (z : Z) : node -> Prop :=
| EL_from_start i v : z = Z.of_nat i -> nth_error l i = Some v -> element l z v
| EL_from_end i v : z = (- Z.of_nat (S i))%Z -> nth_error (rev l) i = Some v -> element l z v
| EL_beyond : (Z.of_nat (length l) <= z)%Z -> element l z NNone.

(** ** emit *)
(** [e'] is [e] with the value of the innermost [k] replaced by [v]; nothing else differs *)
Definition env_same_but (k : text) (v : node) (e e' : env) : Prop :=
  exists inner f f' outer, innermost e inner f outer k /\ same_but k v f f' /\ e' = inner ++ f' :: outer.
(** a value that a list keeps as one element *)
Definition one_element (v : node) : Prop :=
  match v with NNone | NEmbed _ | NBuiltin _ | NSpecial _ => False | _ => True end.
(** expressions that can stand for a function *)
Definition function_expr (f : node) : Prop :=
  match f with
  | NVar _ _ | NLambda _ _ | NLambdaV _ _ _ | NApply _ _ _ _ _ | NCond _ _ _ | NLet _ _ _ => True
  | _ => False
  end.

(** ** Application of functions *)
(** [binds named dflt params vs bs]: the parameters [params] get the values [bs] when the
    named arguments are [named], the positional ones [vs] and the defaults [dflt]:
    a parameter named by an argument takes it; the others take the positional arguments
    in order, then their defaults; the parameter [...] takes all remaining arguments. *)
Inductive binds (named dflt : list (text * node)) : list text -> list node -> list (text * node) -> Prop :=
| BI_end : binds named dflt [] [] []
| BI_named p r vs v bs : gives named p v -> binds named dflt r vs bs ->
    binds named dflt (p :: r) vs ((p, v) :: bs)
| BI_positional p r v vs bs : ~ In p (names named) -> p <> lit "__va_args__" -> binds named dflt r vs bs ->
    binds named dflt (p :: r) (v :: vs) ((p, v) :: bs)
| BI_rest r v vs bs : ~ In (lit "__va_args__") (names named) -> binds named dflt r [] bs ->
    binds named dflt (lit "__va_args__" :: r) (v :: vs) ((lit "__va_args__", NList (v :: vs)) :: bs)
| BI_default p r d bs : ~ In p (names named) -> gives dflt p d -> binds named dflt r [] bs ->
    binds named dflt (p :: r) [] ((p, d) :: bs).
(** A value that evaluates to itself, without effects, and that a list keeps *)
Definition steady ec parse (v : node) : Prop :=
  one_element v /\ v <> NBound /\ forall e s, evals ec parse v e s v e s.

(** A function whose body lists parameters and constants *)
Inductive litem := LVar (r : region) (a : source) | LConst (v : node).
Definition lnode (x : litem) : node := match x with LVar r a => NVar r a | LConst v => v end.
(** the element the item stands for, given the values of the parameters *)
Inductive lvalue (bs : list (text * node)) : litem -> node -> Prop :=
| LV_var r a v : gives bs (s_txt a) v -> lvalue bs (LVar r a) v
| LV_const v : lvalue bs (LConst v) v.

(** A text template: literal pieces and references to parameters *)
Inductive titem := TLit (s : source) (i : indent) | TRef (r : region) (a : source) (file : option text) (pos : Z).
Definition tnode (x : titem) : node :=
  match x with TLit s i => NPlain s i false | TRef r a f p => NApply (NVar r a) [] [] f p end.
(** values with an obvious text *)
Inductive value_text : node -> text -> Prop :=
| VT_str s : value_text (NStr s) (s_txt s)
| VT_raw t : value_text (NRaw t) t
| VT_int z : value_text (NInt z) (Z_text z).
Definition textual (v : node) : Prop := exists u, value_text v u.
(** the template with every reference replaced by the text of its value; [shift ind u w]:
    at the indentation [ind] the text [u] becomes [w] *)
Inductive filled (shift : text -> text -> text -> Prop) (bs : list (text * node)) : indent -> list titem -> text -> Prop :=
| FI_end ind : filled shift bs ind [] []
| FI_lit ind s i r t : filled shift bs (indent_then ind (NPlain s i false)) r t ->
    filled shift bs ind (TLit s i :: r) (s_txt s ++ t)
| FI_ref ind reg a f p r v u w t : gives bs (s_txt a) v -> value_text v u ->
    shift (ind_text ind) u w -> filled shift bs IndFalse r t ->
    filled shift bs ind (TRef reg a f p :: r) (w ++ t).

(** the name under which a declared parameter is known; [...] collects the remaining arguments *)
Definition param_name (a : source) : text := if teqb (s_txt a) (lit "...") then lit "__va_args__" else s_txt a.
(** [declares bd ps dflt]: the parameter list [bd] of a function evaluated in [e], [s] declares
    the parameters [ps] and gives some of them the defaults [dflt] (no late-bound parameters) *)
Inductive declares ec parse (e : env) (s : yst) : list (list source * source * node) -> list text -> list (text * node) -> Prop :=
| DE_end : declares ec parse e s [] [] []
| DE_plain a bd ps dflt : declares ec parse e s bd ps dflt ->
    declares ec parse e s (([], a, NNone) :: bd) (param_name a :: ps) dflt
| DE_default a d v bd ps dflt : d <> NNone -> evals ec parse d e s v e s -> steady ec parse v ->
    declares ec parse e s bd ps dflt ->
    declares ec parse e s (([], a, d) :: bd) (param_name a :: ps) ((s_txt a, v) :: dflt).
(** the values of the named arguments of a call *)
Definition named_values ec parse e s (named : list (source * node)) (nm : list (text * node)) : Prop :=
  Forall2 (fun a b => s_txt (fst a) = fst b /\ evals ec parse (snd a) e s (snd b) e s) named nm /\
  NoDup (names nm) /\ Forall (fun b => steady ec parse (snd b)) nm.
