(** * Values and runs up to browse tables (specification)

    With browse information on, a finished text carries two tables (where its parts
    come from, and how trimming has moved them).  [flat] takes these tables off a
    value, wherever they occur in it; what is left of a finished text is its
    characters. *)
From Coq Require Import List NArith ZArith Bool.
From Verif Require Import PyStr Ast Eval Pp Shell.
Import ListNotations.

Fixpoint flat (x : node) : node :=
  match x with
  | NResult t _ _ => NRaw t
  | NList l => NList (map flat l)
  | NT l i => NT (map flat l) i
  | NText l a b => NText (map flat l) a b
  | NApply f args named file pos =>
      NApply (flat f) (map flat args) (map (fun p => (fst p, flat (snd p))) named) file pos
  | NEval a d c => NEval (flat a) d c
  | NInfix a f p => NInfix (flat a) f p
  | NEmbed a => NEmbed (flat a)
  | NSet l a => NSet l (flat a)
  | NLet l a f => NLet l (flat a) (flat f)
  | NEmit r a e => NEmit r a (flat e)
  | NLambda b f => NLambda (map (fun p => (fst p, flat (snd p))) b) (flat f)
  | NLambdaV r a f => NLambdaV r a (flat f)
  | NCond c a e => NCond (flat c) (flat a) (flat e)
  | NLClosure f env late dflt =>
      NLClosure (flat f) (map (fun p => (fst p, flat (snd p))) env) late (map (fun p => (fst p, flat (snd p))) dflt)
  | NMClosure f env d c => NMClosure f (map (fun p => (fst p, flat (snd p))) env) d c
  | NInfixClosure e env f p => NInfixClosure e (map (fun p => (fst p, flat (snd p))) env) f p
  | NCondClosure c a e => NCondClosure (flat c) (flat a) (flat e)
  | NSetClosure f env => NSetClosure (flat f) (map (fun p => (fst p, flat (snd p))) env)
  | NTrim a i => NTrim (flat a) i
  | NEnv env => NEnv (map (fun p => (fst p, flat (snd p))) env)
  | NLazy a => NLazy (flat a)
  | _ => x
  end.
Definition flat_frame (f : frame) : frame := map (fun p => (fst p, flat (snd p))) f.
(** The state without the list of the files the tables refer to. *)
Definition flat_st (s : yst) : yst := set_files [] (set_unique (map flat (y_unique s)) s).

(** The same result, up to tables *)
Definition same (x y : node) : Prop := flat x = flat y.
Definition same_st (s s' : yst) : Prop := flat_st s = flat_st s'.
Inductive same_run : res (node * yst) -> res (node * yst) -> Prop :=
| SR_ok x s x' s' : same x x' -> same_st s s' -> same_run (Ok (x, s)) (Ok (x', s'))
| SR_err e : same_run (Err e) (Err e)
| SR_fuel : same_run Fuel Fuel.
(** A function in Python that does not look at the tables *)
Definition blind (f : list node -> M node) : Prop :=
  forall args args' s s', Forall2 same args args' -> same_st s s' -> same_run (f args s) (f args' s').
Definition blind_entry (b : option bval) : Prop := match b with Some (BFun f) => blind f | _ => True end.
Inductive same_value : res node -> res node -> Prop :=
| SV_ok x x' : same x x' -> same_value (Ok x) (Ok x')
| SV_err e : same_value (Err e) (Err e)
| SV_fuel : same_value Fuel Fuel.
Definition same_frame (f f' : frame) : Prop := flat_frame f = flat_frame f'.
(** A world none of whose parts looks at the tables: the functions of scripts and
    the rest of the built-in functions, expressions in Python, and [repr]. *)
Record blind_world (w : world) : Prop := BlindWorld {
  bw_scripts : forall imported name, blind_entry (w_scripts w imported name);
  bw_rest : forall name, blind_entry (w_rest w name);
  bw_infix : forall e f f', same_frame f f' -> same_value (w_infix w e f) (w_infix w e f');
  bw_repr : forall x x', same x x' -> w_repr w x = w_repr w x'
}.
(** The same configuration with browse information on or off *)
Definition with_browse (b : bool) (cfg : config) : config :=
  Config (k_skip cfg) (k_trim cfg) (k_reduce cfg) b (k_define cfg) (k_dirs cfg) (k_passage cfg).
