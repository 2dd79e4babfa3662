(** * AST nodes, exceptions and the state of the preprocessor

    Models the classes of /repo/pp/yugen.py lines 246-745 (AST) and 2215-2650
    (AST extension).  Python attributes that only serve tracing are dropped. *)

From Coq Require Import List NArith ZArith Bool.
From Verif Require Import PyStr.
Import ListNotations.
Open Scope N_scope.

(** ** Exceptions as values *)

(** Exception classes raised by the modelled code or by the Python library
    calls it makes. *)
Inductive pyclass :=
| SyntaxError | EOFError | TypeError | ValueError | IndexError | KeyError
| UnboundLocalError | AttributeError | IOError | PyOther.

Record exn := Exn { e_class : pyclass; e_msg : String.string }.
Arguments Exn e_class e_msg%string_scope.

(** Outcome of a computation: a value, an exception, or the model's recursion
    budget ran out (Python: RecursionError or non-termination). *)
Inductive res (A : Type) :=
| Ok (a : A)
| Err (e : exn)
| Fuel.
Arguments Ok {A} a.
Arguments Err {A} e.
Arguments Fuel {A}.

(** ** SOURCE: a string with a location; yugen.py 247-273 *)
Record source := Src { s_txt : text; s_file : option text; s_pos : Z }.

(** [SOURCE.__getitem__] with a slice [i:], non-negative [i]; yugen.py 262-264 *)
Definition sfrom (i : nat) (s : source) : source :=
  Src (skipn i (s_txt s)) (s_file s) (s_pos s + Z.of_nat i).
(** [SOURCE.__getitem__] with a slice [:i], non-negative [i] *)
Definition sto (i : nat) (s : source) : source :=
  Src (firstn i (s_txt s)) (s_file s) (s_pos s).
(** [SOURCE(val)] of a plain string: no location; yugen.py 252-260 *)
Definition raw (t : text) : source := Src t None 0.

(** [sou[:len(p)] == p] *)
Definition sstarts (p : text) (s : source) : bool := startswith p (s_txt s).
(** [sou[:1] == c] *)
Definition sis (c : char) (s : source) : bool :=
  match s_txt s with x :: _ => x =? c | [] => false end.

(** [PLAIN.indent]; yugen.py 322-336: [None], a [str] or [False] *)
Inductive indent := IndNone | IndStr (t : text) | IndFalse.

(** [VAR.reg]; yugen.py 569-587: [LATE_BOUND()] or a list of atoms *)
Inductive region := RLate | RList (l : list source).

(** [SET.lval], [LET.lval]: an atom or a list of atoms; yugen.py 610-646 *)
Inductive lval := LAtom (a : source) | LList (l : list source).

(** ** Nodes
    One constructor per class.  Values of Python's own types that occur at
    evaluation are included: [None], [str], [int], [bool], [float], [list].
    INT and int (FLOAT and float, LIST and list) are not distinguished: they
    differ only in [repr].  A float is kept as its literal text. *)
Inductive node :=
| NNone                                     (* None *)
| NAtom (s : source)                        (* ATOM 293-299 *)
| NRemark (s : source)                      (* REMARK 302-309 *)
| NStr (s : source)                         (* STR 312-319 *)
| NPlain (s : source) (i : indent) (trim : bool)  (* PLAIN 322-366 *)
| NSource (s : source)                      (* bare SOURCE (header line ends) *)
| NRaw (t : text)                           (* str *)
| NResult (t : text) (browse : list (Z * nat * Z)) (offset : list (Z * Z)) (* RESULT 2901-2960 *)
| NInt (z : Z)                              (* INT, int *)
| NBool (b : bool)                          (* bool *)
| NFloat (t : text)                         (* FLOAT, float *)
| NList (l : list node)                     (* LIST, list *)
| NT (l : list node) (i : indent)           (* T 2357-2364 *)
| NText (l : list node) (sq p : nat)        (* TEXT 538-566 *)
| NVar (r : region) (a : source)            (* VAR 569-587 *)
| NApply (fn : node) (args : list node) (named : list (source * node))
         (file : option text) (pos : Z)     (* APPLY 589-608 *)
| NEval (ast : node) (decl call : option source) (* EVAL 509-517 *)
| NInfix (ast : node) (file : option text) (pos : Z) (* INFIX 520-527 *)
| NEmbed (ast : node)                       (* EMBED 530-535 *)
| NSet (l : lval) (ast : node)              (* SET 610-626 *)
| NLet (l : lval) (ast form : node)         (* LET 628-646 *)
| NMacro (name : source) (pars : list source) (body : text) (* MACRO 648-666 *)
| NEmit (r : region) (a : source) (ast : node) (* EMIT 668-684; ast = None if absent *)
| NLambda (b : list (list source * source * node)) (l_form : node)
                                            (* LAMBDA 686-702; default None if absent *)
| NLambdaV (r : region) (a : source) (l_form : node) (* LAMBDA whose bound is a VAR *)
| NCond (cond leg1 leg0 : node)             (* COND 704-725 *)
| NComment                                  (* COMMENT 468-473 *)
| NImportBegin                              (* IMPORT_BEGIN 476-481 *)
| NImportEnd                                (* IMPORT_END 484-489 *)
| NBound                                    (* BOUND 2221-2227 *)
| NLClosure (l_form : node) (env : list (text * node))
            (late : list (text * list text)) (dflt : list (text * node)) (* 2229-2260 *)
| NMClosure (l_form : text) (env : list (text * node)) (decl call : option source) (* 2262-2270 *)
| NInfixClosure (expr : text) (env : list (text * node)) (file : option text) (pos : Z) (* 2272-2290 *)
| NCondClosure (cond leg1 leg0 : node)      (* 2292-2310 *)
| NSetClosure (form : node) (env : list (text * node)) (* 2312-2329 *)
| NBuiltin (a : source)                     (* BUILTIN 2331-2347 *)
| NSpecial (a : source)                     (* BUILTIN_SPECIAL 2349-2355 *)
| NTrim (ast : node) (ind : text)           (* TRIM 2403-2411 *)
| NEnv (env : list (text * node))           (* ENV as a value (result of SET) *)
| NLazy (ast : node)                        (* LAZY 2633-2639 *)
| NSkip                                     (* SKIP 2641-2647 *)
| NOpaque (t : text).                       (* any other Python object *)

Definition frame := list (text * node).

(** ** yushell / feedback state; yugen.py 67-71, 2657-2685 *)

(** First component of the entries of [yushell.source]: a path, nothing, or the
    located name of the macro / evaluated string. *)
Inductive decl := DNone | DPath (p : text) | DSrc (s : source).

Record yst := St {
  y_source : list (text * (decl * text));   (* yushell.source *)
  y_inclusion : list (option source);       (* yushell.inclusion *)
  y_script : list text;                     (* yushell.script *)
  y_shrink : nat;                           (* yushell.shrink *)
  y_hazard : list source;                   (* yushell.hazard *)
  y_output : text;                          (* yushell.output_file *)
  y_fb_output : option text;                (* feedback.output_file *)
  y_fb_repeat : bool;                       (* feedback.repeat *)
  y_unique : list node;                     (* default argument of builtin 'unique' *)
  y_files : list text;                      (* RESULT.files, in order of insertion *)
  y_log : list String.string                (* log.warn calls, latest first *)
}.

Definition set_source (v : list (text * (decl * text))) (s : yst) : yst :=
  St v (y_inclusion s) (y_script s) (y_shrink s) (y_hazard s) (y_output s)
     (y_fb_output s) (y_fb_repeat s) (y_unique s) (y_files s) (y_log s).
Definition set_inclusion v (s : yst) : yst :=
  St (y_source s) v (y_script s) (y_shrink s) (y_hazard s) (y_output s)
     (y_fb_output s) (y_fb_repeat s) (y_unique s) (y_files s) (y_log s).
Definition set_script v (s : yst) : yst :=
  St (y_source s) (y_inclusion s) v (y_shrink s) (y_hazard s) (y_output s)
     (y_fb_output s) (y_fb_repeat s) (y_unique s) (y_files s) (y_log s).
Definition set_shrink v (s : yst) : yst :=
  St (y_source s) (y_inclusion s) (y_script s) v (y_hazard s) (y_output s)
     (y_fb_output s) (y_fb_repeat s) (y_unique s) (y_files s) (y_log s).
Definition add_hazard (a : source) (s : yst) : yst :=
  St (y_source s) (y_inclusion s) (y_script s) (y_shrink s) (y_hazard s ++ [a]) (y_output s)
     (y_fb_output s) (y_fb_repeat s) (y_unique s) (y_files s) (y_log s).
Definition set_output (v : text) (s : yst) : yst :=
  St (y_source s) (y_inclusion s) (y_script s) (y_shrink s) (y_hazard s) v
     (Some v) (y_fb_repeat s) (y_unique s) (y_files s) (y_log s).
Definition set_repeat (v : bool) (s : yst) : yst :=
  St (y_source s) (y_inclusion s) (y_script s) (y_shrink s) (y_hazard s) (y_output s)
     (y_fb_output s) v (y_unique s) (y_files s) (y_log s).
Definition set_unique v (s : yst) : yst :=
  St (y_source s) (y_inclusion s) (y_script s) (y_shrink s) (y_hazard s) (y_output s)
     (y_fb_output s) (y_fb_repeat s) v (y_files s) (y_log s).
Definition set_files v (s : yst) : yst :=
  St (y_source s) (y_inclusion s) (y_script s) (y_shrink s) (y_hazard s) (y_output s)
     (y_fb_output s) (y_fb_repeat s) (y_unique s) v (y_log s).
Definition warn (m : String.string) (s : yst) : yst :=
  St (y_source s) (y_inclusion s) (y_script s) (y_shrink s) (y_hazard s) (y_output s)
     (y_fb_output s) (y_fb_repeat s) (y_unique s) (y_files s) (m :: y_log s).
Arguments warn m%string_scope s.

(** Python dict keyed by strings, as an association list in insertion order. *)
Fixpoint dict_get {A} (k : text) (d : list (text * A)) : option A :=
  match d with
  | [] => None
  | (k', v) :: d' => if teqb k k' then Some v else dict_get k d'
  end.
Definition dict_mem {A} (k : text) (d : list (text * A)) : bool :=
  match dict_get k d with Some _ => true | None => false end.
(** [d[k] = v]: an existing key keeps its place *)
Fixpoint dict_set {A} (k : text) (v : A) (d : list (text * A)) : list (text * A) :=
  match d with
  | [] => [(k, v)]
  | (k', v') :: d' => if teqb k k' then (k', v) :: d' else (k', v') :: dict_set k v d'
  end.

(** ** State-and-exception monad *)
Definition M (A : Type) := yst -> res (A * yst).
Definition ret {A} (a : A) : M A := fun s => Ok (a, s).
Definition throw {A} (e : exn) : M A := fun _ => Err e.
Definition bind {A B} (m : M A) (f : A -> M B) : M B :=
  fun s => match m s with
           | Ok (a, s') => f a s'
           | Err e => Err e
           | Fuel => Fuel
           end.
Definition get_st : M yst := fun s => Ok (s, s).
Definition modify (f : yst -> yst) : M unit := fun s => Ok (tt, f s).
Definition lift {A} (r : res A) : M A :=
  fun s => match r with Ok a => Ok (a, s) | Err e => Err e | Fuel => Fuel end.

Declare Scope monad_scope.
Notation "'let*' x ':=' m 'in' k" := (bind m (fun x => k))
  (at level 200, x pattern, m at level 100, k at level 200, right associativity) : monad_scope.
Notation "m ;; k" := (bind m (fun _ => k))
  (at level 200, right associativity) : monad_scope.
