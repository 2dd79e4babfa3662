(** * One run of the preprocessor

    Models /repo/pp/yugen.py 2657-2685 (yushell), 2788-2796
    (_update_builtin_from_config), 3753-3755 (yuinit), 3790-3819
    (make_ast_readable) and /repo/pp/yup.py 290-368 (_pp), 394-401 (_pp_stream up
    to _pp).  Messages and traces are left out. *)

From Coq Require Import List NArith ZArith Bool.
From Verif Require Import PyStr Ast Lex Parse Final Eval Builtin Loc Shell.
Import ListNotations.
Open Scope N_scope.

(** What the preprocessor takes from outside: files and the parts of Python that
    are oracles of the other models. *)
Record world := World {
  w_read : text -> option text;            (* open( path ).read(), None: not a file *)
  w_unq : text -> text; w_pyimport : text -> res unit; w_evalimport : text -> res text;
  w_str : node -> text;
  w_scripts : list text -> text -> option bval;
  w_rest : text -> option bval;
  w_names : text -> res (list text); w_infix : text -> frame -> res node;
  w_float_str : text -> text; w_float_int : text -> Z; w_repr : node -> text;
  w_lib : text;                            (* directory of the yupp libraries, 2675-2678 *)
  w_json : list text -> btab -> otab -> text  (* json.dumps, yup.py 417-421 *)
}.
(** config; yugen.py 54-62 *)
Record config := Config {
  k_skip : Z;                              (* pp_skip_comments: 0 none, 1 C, 2 Python, 3 auto *)
  k_trim : bool; k_reduce : bool; k_browse : bool;
  k_define : list text; k_dirs : list text; k_passage : Z
}.
(** What one run leaves in the process for the next ones: constants added to
    [builtin] and the default argument of [unique].  (Names that Python scripts
    add to [builtin] persist as well; this is not modelled.) *)
Record process := Proc { pr_defines : list (text * node); pr_unique : list node }.

(** _update_builtin_from_config; 2788-2796: see [define_one] *)
Definition define_node (v : cval) : node :=
  match v with VBool b => NBool b | VStr t => NRaw t | VInt z => NInt z | _ => NNone end.
Definition updated_defines (defs : list text) (old : list (text * node)) : list (text * node) :=
  fold_left (fun d kv => dict_set (fst kv) (define_node (snd kv)) d) (fold_left define_one defs []) old.

Section Run.
Variable w : world.
Variable cfg : config.

(** yushell; 2657-2685.  [None]: no name, as for the interactive loop. *)
Definition input_key (input : option text) : text :=
  match input with Some (c :: p) => basename (c :: p) | _ => lit "<stdin>" end.
Definition output_name (output : option text) : text :=
  match output with Some (c :: p) => basename (c :: p) | _ => lit "<stdout>" end.
Definition is_python (output : option text) : bool :=
  teqb (lower (snd (splitext (output_name output)))) (lit ".py").
Definition skip_of (python : bool) : skip_mode :=
  if (k_skip cfg =? 3)%Z then (if python then SkipPython else SkipC)
  else if (k_skip cfg =? 1)%Z then SkipC
  else if (k_skip cfg =? 2)%Z then SkipPython
  else SkipNone.
Definition directories (input : option text) : list text :=
  (match input with Some (c :: p) => [dirname (c :: p)] | _ => [] end) ++ k_dirs cfg ++ [w_lib w].
Definition run_ctx (input output : option text) : pctx :=
  Ctx (is_python output) (skip_of (is_python output)) (input_key input) (directories input)
      (w_read w) (w_unq w) (w_pyimport w) (w_evalimport w) (w_str w).
Definition run_start (t : text) (input output : option text) (pr : process) : yst :=
  St (dict_set (input_key input)
        (match input with Some p => DPath p | None => DNone end, unify_eol t)
        [(source_empty, (DPath [], []))])
     [] [] 0 [] (output_name output) None false (pr_unique pr) [] [].
Definition run_ectx (input output : option text) (pr : process) : ectx :=
  ECtx (run_ctx input output) (k_trim cfg) (k_browse cfg) (k_passage cfg)
       (builtin_with (updated_defines (k_define cfg) (pr_defines pr)) (w_scripts w) (input_key input) (w_rest w))
       (w_names w) (w_infix w) (w_float_str w) (w_float_int w) (w_repr w).

(** make_ast_readable; 3790-3819 *)
Fixpoint readable (ec : ectx) (x : node) : text :=
  match x with
  | NSetClosure f _ => readable ec f
  | NTrim a ind => trim (e_trim ec) ind (readable ec a)
  | NList l | NT l _ => concat (map (readable ec) l)
  | NLazy a => readable ec a
  | NPlain s _ tr => get_trimmed (e_trim ec) tr s
  | NInt _ | NBool _ | NFloat _ => py_str ec x
  | _ => match str_of x with Some t => t | None => ast_pretty (e_repr ec x) end
  end.

(** the text of a successful run; yup.py 334-336 *)
Inductive output := OText (t : text) | OResult (r : result).
Definition output_of (x : node) : option output :=
  match x with
  | NResult t b o => Some (OResult (Res t b o))
  | _ => option_map OText (str_of x)
  end.
Definition final (o : output) : output :=
  match o with
  | OText t => OText (replace_steady (reduce_emptiness (k_reduce cfg) t))
  | OResult r => OResult (replace_steady_browse (reduce_emptiness_browse (k_reduce cfg) r))
  end.
Definition output_text (o : output) : text := match o with OText t => t | OResult r => r_txt r end.

(** _pp with what _pp_stream reads from it afterwards; yup.py 290-368, 401-421.
    [d]: depth of nested imports, [n]: budget of the evaluator.  A failed run
    keeps nothing of the state (the code keeps [unique] and the defines). *)
Definition failed (t : text) : ppres := PP false t None None false 0.
Definition pp (d n : nat) (t : text) (input output : option text) (pr : process) : res ppres :=
  let ec := run_ectx input output pr in
  match yuparse (run_ctx input output) d (input_key input) (run_start t input output pr) with
  | Err _ => Ok (failed [])
  | Fuel => Fuel
  | Ok (l, s) =>
      match yueval ec (yuparse (run_ctx input output) d) n (NText l 0 0) [] s with
      | Err _ => Ok (failed [])
      | Fuel => Fuel
      | Ok (x, _, s) =>
          match output_of x with
          | Some o =>
              let o := final o in
              Ok (PP true (output_text o)
                     (match o with
                      | OResult r => Some (w_json w (y_files s) (r_browse r) (r_offset r))
                      | OText _ => None
                      end)
                     (y_fb_output s) (y_fb_repeat s) (y_shrink s))
          | None => Ok (PP false (readable ec x) None (y_fb_output s) (y_fb_repeat s) (y_shrink s))
          end
      end
  end.
End Run.

(** One pass over a source, as the loop over the passes sees it; yup.py 585-592:
    config.passage is the number of the pass.  [log]: what the passes so far have
    yielded; [prs k]: the state of the process before pass [k]. *)
Definition at_passage (cfg : config) (k : nat) : config :=
  Config (k_skip cfg) (k_trim cfg) (k_reduce cfg) (k_browse cfg) (k_define cfg) (k_dirs cfg) (Z.of_nat k).
Definition run_pass (w : world) (cfg : config) (d n : nat) (t : text) (input output : option text) (prs : nat -> process)
  (k : nat) (log : list ppres) : outcome * list ppres :=
  match pp w (at_passage cfg k) d n t input output (prs k) with
  | Ok r => (Out (p_ok r) (p_repeat r), log ++ [r])
  | _ => (Out false false, log)
  end.
