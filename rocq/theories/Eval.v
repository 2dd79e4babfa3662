(** * The evaluator

    Models /repo/pp/yugen.py 2507-2617 (ENV), 2810-3042 (terms, plain text),
    3069-3750 (yueval).

    Python evaluates by mutating AST nodes and environments in place; a variable's
    value is deep-copied on every use, so no node is shared and the model returns
    new nodes instead.  The environment chain is a stack of frames that is passed
    down and returned ([($emit ..)] updates it).  A closure re-attaches its frame
    to the current environment whenever it is evaluated (3497, 3553), hence only
    its own frame is kept. *)

From Coq Require Import List NArith ZArith Bool.
From Verif Require Import PyStr Ast Lex Parse Final.
Import ListNotations.
Open Scope N_scope.

(** ** ENV; yugen.py 2507-2617 *)
Definition env := list frame.

(** __setitem__ (2523-2528): the key goes to the end of the order *)
Definition frame_del (k : text) (f : frame) : frame :=
  filter (fun e => negb (teqb k (fst e))) f.
Definition frame_set (k : text) (v : node) (f : frame) : frame := frame_del k f ++ [(k, v)].
(** lookup (2558-2568) *)
Fixpoint lookup (e : env) (var : text) : option node :=
  match e with
  | [] => None
  | f :: e' => match dict_get var f with Some v => Some v | None => lookup e' var end
  end.
(** update_variable (2571-2581): [dict.__setitem__], the order is unchanged *)
Fixpoint update_variable (var : text) (v : node) (e : env) : env :=
  match e with
  | [] => []
  | f :: e' => if dict_mem var f then dict_set var v f :: e' else f :: update_variable var v e'
  end.
(** unassigned (2584-2589) *)
Fixpoint unassigned (f : frame) : option text :=
  match f with
  | [] => None
  | (k, NBound) :: _ => Some k
  | _ :: f' => unassigned f'
  end.
(** __va_args__; 2496 *)
Definition va_args : text := lit "__va_args__".

(** ** Classification of nodes *)
Definition str_of (x : node) : option text :=   (* isinstance( x, str ) *)
  match x with
  | NAtom s | NRemark s | NStr s | NPlain s _ _ | NSource s => Some (s_txt s)
  | NRaw t | NResult t _ _ => Some t
  | _ => None
  end.
Definition list_of (x : node) : option (list node) :=  (* isinstance( x, list ) *)
  match x with NList l | NT l _ => Some l | _ => None end.
Definition is_comment (x : node) : bool := match x with NComment => true | _ => false end.
Definition is_plain (x : node) : bool := match x with NPlain _ _ _ => true | _ => false end.
Definition is_ind_str (i : indent) : bool := match i with IndStr _ => true | _ => false end.
Definition ind_text (i : indent) : text := match i with IndStr t => t | _ => [] end.

(** _is_term; yugen.py 2814-2842 *)
Fixpoint is_term (x : node) : bool :=
  match x with
  | NNone => true
  | NTrim a _ => is_term a
  | NList l | NT l _ => forallb is_term l
  | NLazy _ => true
  | NAtom _ | NRemark _ | NStr _ | NPlain _ _ _ | NSource _ | NRaw _ | NResult _ _ _ => true
  | NInt _ | NBool _ | NFloat _ => true
  | _ => false
  end.

(** _detect_deadlock; yugen.py 2845-2870 *)
Fixpoint detect_deadlock (x : node) : bool :=
  match x with
  | NTrim a _ => detect_deadlock a
  | NList l | NT l _ => existsb detect_deadlock l
  | NBuiltin _ | NSpecial _ => true
  | _ => false
  end.

(** ** Context *)

(** Value of a name in [builtin]: a constant, or a function of the argument list. *)
Inductive bval := BConst (v : node) | BFun (f : list node -> M node).

Record ectx := ECtx {
  e_parse : pctx;
  e_trim : bool;                           (* config.pp_trim_app_indent *)
  e_browse : bool;                         (* config.pp_browse *)
  e_passage : Z;                           (* config.passage *)
  e_builtin : list text -> text -> option bval; (* [builtin] after the given scripts were imported *)
  e_names : text -> res (list text);       (* identifiers of a Python expression (oracle) *)
  e_infix : text -> frame -> res node;     (* eval of a Python expression (oracle) *)
  e_float_str : text -> text;              (* str( float ) (oracle) *)
  e_float_int : text -> Z;                 (* int( float ) (oracle) *)
  e_repr : node -> text                    (* repr( ) (oracle) *)
}.

Section Eval.
Variable ec : ectx.

(** [str( x )] *)
Definition py_str (x : node) : text :=
  match x with
  | NNone => lit "None"
  | NBool true => lit "True"
  | NBool false => lit "False"
  | NFloat t => e_float_str ec t
  | NInt z => Z_text z
  | _ => match str_of x with Some t => t | None => e_repr ec x end
  end.

(** _plain_back; yugen.py 2810-2811 *)
Definition plain_back (x : node) : text :=
  match list_of x with Some [] => lit "()" | _ => py_str x end.

(** truth value of a node; compound nodes are objects without a length, hence
    true, and so are atoms and literals written in the source unless empty or 0
    (a float is false iff it has no digit other than zero before its exponent) *)
Definition truthy (x : node) : bool :=
  match x with
  | NNone => false
  | NInt z => negb (z =? 0)%Z
  | NBool b => b
  | NFloat t => existsb (fun c => is_digit c && negb (c =? 48))
                  (firstn (span_len (fun c => negb ((c =? 101) || (c =? 69))) t) t)
  | NEnv f => match f with [] => false | _ => true end
  | _ => match str_of x with
         | Some t => match t with [] => false | _ => true end
         | None => match list_of x with Some [] => false | _ => true end
         end
  end.

(** _plain; yugen.py 2873-2898 *)
Fixpoint plain (x : node) : text :=
  match x with
  | NNone => []
  | NTrim a ind => trim (e_trim ec) ind (plain a)
  | NList l | NT l _ => concat (map plain l)
  | NLazy a => plain a
  | NPlain s _ tr => get_trimmed (e_trim ec) tr s
  | _ => py_str x
  end.

(** RESULT.loc; yugen.py 2922-2940.  Budget: macros and evaluated texts nest at
    most as deep as there are inclusions. *)
Definition file_index (fn : text) : M nat :=
  fun st =>
    let fix go (i : nat) (l : list text) : option nat :=
      match l with
      | [] => None
      | f :: l' => if teqb f fn then Some i else go (S i) l'
      end in
    match go O (y_files st) with
    | Some i => Ok (i, st)
    | None => Ok (length (y_files st), set_files (y_files st ++ [fn]) st)
    end.
(** [int( s )] of a digit string *)
Definition text_nat (s : text) : nat := Z.to_nat (digits_val 10 0 s).
Fixpoint result_loc (n : nat) (file : text) (pos : Z) : M btab :=
  match n with
  | O => fun _ => Fuel
  | S m =>
      bind get_st (fun st =>
      match dict_get file (y_source st) with
      | None => throw (Exn KeyError "yushell.source")
      | Some (decl, _) =>
          if all_digits file then
            bind (match nth_error (y_inclusion st) (text_nat file) with
                  | None => throw (Exn IndexError "yushell.inclusion")
                  | Some None => ret []
                  | Some (Some call) =>
                      match s_file call with
                      | Some f => result_loc m f (s_pos call)
                      | None => throw (Exn KeyError "yushell.source")
                      end
                  end) (fun b1 =>
            bind (match decl with
                  | DSrc (Src _ (Some f) p) => result_loc m f (- p)
                  | DSrc (Src _ None _) => throw (Exn KeyError "yushell.source")
                  | _ => throw (Exn AttributeError "input_file")
                  end) (fun b2 => ret (b1 ++ b2)))
          else
            let fn := match decl with
                      | DPath (c :: p) => c :: p
                      | DSrc s => s_txt s
                      | _ => file
                      end in
            bind (file_index fn) (fun i => ret [(0%Z, i, pos)])
      end)
  end.

(** _plain_with_browse; yugen.py 2963-2997 *)
Definition source_result (s : source) : M result :=
  match s_txt s, s_file s with
  | _ :: _, Some (c :: f) =>
      bind get_st (fun st =>
      bind (result_loc (S (length (y_inclusion st))) (c :: f) (s_pos s)) (fun b =>
      ret (Res (s_txt s) b [])))
  | _, _ => ret (res_of (s_txt s))
  end.
Fixpoint plain_with_browse (x : node) : M result :=
  match x with
  | NNone => ret (res_of [])
  | NResult t b o => ret (Res t b o)
  | NTrim a ind => bind (plain_with_browse a) (fun r => ret (trim_with_browse (e_trim ec) ind r))
  | NList l | NT l _ =>
      bind ((fix go (l : list node) : M (list result) :=
               match l with
               | [] => ret []
               | y :: l' => bind (plain_with_browse y) (fun r =>
                            bind (go l') (fun rs => ret (r :: rs)))
               end) l) (fun rs => ret (concat_results rs))
  | NLazy a => plain_with_browse a
  | NPlain s _ tr => source_result (get_trimmed_with_browse (e_trim ec) tr s)
  | NAtom s | NRemark s | NStr s | NSource s => source_result s
  | _ => ret (res_of (py_str x))
  end.

(** ** Evaluation monad: environment and shell state *)
Definition E (A : Type) := env -> yst -> res (A * env * yst).
Definition eret {A} (a : A) : E A := fun e s => Ok (a, e, s).
Definition ethrow {A} (c : pyclass) (m : String.string) : E A := fun _ _ => Err (Exn c m).
Definition ebind {A B} (m : E A) (k : A -> E B) : E B :=
  fun e s => match m e s with
             | Ok (a, e', s') => k a e' s'
             | Err x => Err x
             | Fuel => Fuel
             end.
Definition lift_m {A} (m : M A) : E A :=
  fun e s => match m s with
             | Ok (a, s') => Ok (a, e, s')
             | Err x => Err x
             | Fuel => Fuel
             end.
Definition lift_r {A} (r : res A) : E A := lift_m (lift r).
Definition get_env : E env := fun e s => Ok (e, e, s).
Definition mod_env (f : env -> env) : E unit := fun e s => Ok (tt, f e, s).
Definition ewarn (m : String.string) : E unit := lift_m (modify (warn m)).
(** Evaluate under a new innermost frame and take the frame off again. *)
Definition in_frame {A} (f : frame) (m : E A) : E (A * frame) :=
  fun e s => match m (f :: e) s with
             | Ok (a, f' :: e', s') => Ok ((a, f'), e', s')
             | Ok (_, [], _) => Err (Exn PyOther "environment stack")
             | Err x => Err x
             | Fuel => Fuel
             end.
Arguments ethrow {A} c m%string_scope.
Arguments ewarn m%string_scope.
Declare Scope emonad_scope.
Notation "'let!' x ':=' m 'in' k" := (ebind m (fun x => k))
  (at level 200, x pattern, m at level 100, k at level 200, right associativity) : emonad_scope.
Open Scope emonad_scope.

Section Body.
(** the recursive call [yueval( node, env, depth + 1 )] *)
Variable self : node -> E node.

Definition set_trim (x : node) : node :=
  match x with NPlain s i _ => NPlain s i true | _ => x end.
Definition mark_next (ind : indent) (rest : list node) : list node :=
  match rest with
  | y :: r => if is_ind_str ind && is_plain y then set_trim y :: r else rest
  | [] => []
  end.

(** T; yugen.py 3099-3187.  [mark]: the trim flag of the next item was set by a
    preceding comment. *)
Fixpoint t_loop (mark : bool) (ind : indent) (skip : nat) (t : list node) (items : list node)
  : E (list node) :=
  match items with
  | [] => eret t
  | x :: rest =>
      match skip with
      | S k =>
          match x with
          | NImportBegin => t_loop false ind (S skip) t rest
          | NImportEnd => t_loop false ind k t rest
          | _ => t_loop false ind skip t rest
          end
      | O =>
          let x := if mark then set_trim x else x in
          let x_indent := match x with
                          | NPlain _ IndNone _ => ind
                          | NPlain _ i _ => i
                          | _ => IndFalse
                          end in
          let x_apply := match x with NApply _ _ _ _ _ => true | _ => false end in
          let push v := t_loop false x_indent O
                          (t ++ [if x_apply then NTrim v (ind_text ind) else v]) rest in
          if is_comment x then
              t_loop (is_ind_str ind && match rest with y :: _ => is_plain y | [] => false end)
                     ind O t rest
          else
              let! v := self x in
              match v with
              | NNone => t_loop false ind O t rest
              | NSkip => t_loop false ind 1 t rest
              | NImportBegin | NImportEnd => t_loop false ind O t rest
              | NEnv f =>
                  match rest with
                  | [] => let! _ := ewarn "useless assign" in eret t
                  | _ =>
                      let! v := self (NSetClosure (NT (mark_next ind rest) ind) f) in
                      eret (t ++ [v])
                  end
              | NEmbed (NT l _) =>
                  let l := match ind with
                           | IndStr (c :: i) => map (add_indent (c :: i)) l
                           | _ => l
                           end in
                  let! tail := self (NT (l ++ rest) ind) in
                  eret (match list_of tail with
                        | Some l => t ++ l
                        | None => t ++ [tail]
                        end)
              | NEmbed v => push v
              | _ => push v
              end
      end
  end.
Definition eval_T (items : list node) (ind : indent) : E node :=
  let! t := t_loop false ind O [] items in
  if is_term (NT t ind) then
    if e_browse ec
    then let! r := lift_m (plain_with_browse (NT t ind)) in
         eret (NResult (r_txt r) (r_browse r) (r_offset r))
    else eret (NRaw (plain (NT t ind)))
  else eret (NT t ind).

(** LIST | list; yugen.py 3698-3721 *)
Fixpoint list_loop (acc : list node) (l : list node) : E (list node) :=
  match l with
  | [] => eret acc
  | x :: r =>
      let! v := self x in
      let! _ := (match v with
                 | NBuiltin a | NSpecial a => lift_m (modify (add_hazard a))
                 | _ => eret tt
                 end) in
      match v with
      | NNone => list_loop acc r
      | NEmbed (NList m) | NEmbed (NT m _) => list_loop (acc ++ m) r
      | NEmbed (NVar _ _) | NEmbed (NApply _ _ _ _ _) => list_loop (acc ++ [v]) r
      | NEmbed w => list_loop (acc ++ [w]) r
      | _ => list_loop (acc ++ [v]) r
      end
  end.

(** evaluation of [node.args] and other lists known to be lists *)
Definition eval_list (l : list node) : E (list node) :=
  let! v := self (NList l) in
  match list_of v with
  | Some l => eret l
  | None => ethrow PyOther "list expected"
  end.

(** _list_eval_1; yugen.py 3018-3042; [None]: NOT_FOUND *)
Fixpoint list_eval_1 (args : list node) : E (option node * list node) :=
  match args with
  | [] => eret (Some NNone, [])
  | a :: r =>
      let! v := self a in
      match v with
      | NEmbed (NList (x :: m)) | NEmbed (NT (x :: m) _) => eret (Some x, m ++ r)
      | NEmbed (NList []) | NEmbed (NT [] _) => list_eval_1 r
      | NEmbed (NVar _ _) | NEmbed (NApply _ _ _ _ _) => eret (None, args)
      | NEmbed w => eret (Some w, r)
      | _ => eret (Some v, r)
      end
  end.

(** ENV.eval_local; yugen.py 2545-2552: new frame and whether all values are terms *)
Fixpoint eval_local (f : frame) : E (frame * bool) :=
  match f with
  | [] => eret ([], true)
  | (k, v) :: f' =>
      let! v' := self v in
      let! (f'', b) := eval_local f' in
      eret ((k, v') :: f'', is_term v' && b)
  end.

(** result of a call of a built-in function; yugen.py 3256 *)
Definition builtin_result (v : node) : node :=
  match v with
  | NBool b => NInt (if b then 1 else 0)
  | _ => match str_of v with Some t => NRaw t | None => v end
  end.
(** value of a built-in constant; yugen.py 3269-3270 *)
Definition const_result (v : node) : node :=
  match str_of v with Some t => NRaw t | None => v end.

(** Names of [builtin_special]; yugen.py 2799-2807 *)
Definition special_names : list text :=
  [lit "__PASSAGE__"; lit "isatom"; lit "lazy"; lit "skip"; lit "reduce"; lit "repr"].
Definition is_special (a : text) : bool := existsb (teqb a) special_names.

Definition find_builtin (a : text) : E (option bval) :=
  lift_m (bind get_st (fun st => ret (e_builtin ec (y_script st) a))).

(** functools.reduce over the elements of a list *)
Fixpoint reduce_list (f : list node -> M node) (acc : node) (l : list node) : M node :=
  match l with
  | [] => ret acc
  | x :: r => bind (f [acc; x]) (fun v => reduce_list f v r)
  end.
(** the sequence argument of reduce: a list, or the characters of a string *)
Definition py_iter (x : node) : option (list node) :=
  match list_of x with
  | Some l => Some l
  | None => option_map (map (fun c => NRaw [c])) (str_of x)
  end.
Definition py_reduce (f : list node -> M node) (args : list node) : M node :=
  match args with
  | [s] => match py_iter s with
           | Some (x :: l) => reduce_list f x l
           | _ => throw (Exn TypeError "reduce() of empty sequence")
           end
  | [s; i] => match py_iter s with
              | Some l => reduce_list f i l
              | None => throw (Exn TypeError "reduce() arg 2 must support iteration")
              end
  | _ => throw (Exn TypeError "reduce expected at least 2 arguments")
  end.

(** APPLY -- BUILTIN -- function | const; yugen.py 3246-3270 *)
Definition apply_function (a : source) (f : list node -> M node) (args : list node)
  (file : option text) (pos : Z) : E node :=
  if is_term (NList args) then
    let! v := lift_m (f args) in eret (builtin_result v)
  else if detect_deadlock (NList args) then ethrow TypeError "yueval: irreducible expression"
  else eret (NApply (NBuiltin a) args [] file pos).
Definition apply_builtin (a : source) (args : list node) (file : option text) (pos : Z) : E node :=
  let! b := find_builtin (s_txt a) in
  match b with
  | Some (BFun f) => apply_function a f args file pos
  | Some (BConst v) =>
      match args with
      | _ :: _ => ethrow TypeError "yueval: no arguments of constant expected"
      | [] => eret (const_result v)
      end
  | None => ethrow PyOther "builtin"
  end.

(** APPLY -- BUILTIN_SPECIAL; yugen.py 3197-3244 *)
Definition apply_special (a : source) (args : list node) (file : option text) (pos : Z) : E node :=
  let nm := s_txt a in
  let one (k : node -> E node) : E node :=
    match args with
    | [x] => k x
    | _ => ethrow TypeError "yueval: only one argument expected"
    end in
  let irreducible := eret (NApply (NSpecial a) args [] file pos) in
  if teqb nm (lit "lazy") then
    one (fun x => match x with
                  | NVar _ _ => irreducible
                  | NList l | NT l _ => eret (NList (map NLazy l))
                  | _ => eret (NLazy x)
                  end)
  else if teqb nm (lit "repr") then
    one (fun x => match x with
                  | NVar _ _ => irreducible
                  | _ => eret (NRaw (e_repr ec x))
                  end)
  else if teqb nm (lit "reduce") then
    match args with
    | [] => ethrow IndexError "list index out of range"
    | h :: r =>
        match h, r with
        | NBuiltin f, _ =>
            if is_term (NList r) then
              let! b := find_builtin (s_txt f) in
              match b with
              | Some (BFun f) => lift_m (py_reduce f r)
              | _ => ethrow TypeError "reduce: not callable"
              end
            else ethrow TypeError "yueval: irreducible expression"
        | _, [] => ethrow TypeError "yueval: unexpected arguments of reduce"
        | NSpecial _, _ => ethrow TypeError "reduce of a special function (not modelled)"
        | _, _ =>
            if is_term (NList r) then ethrow AttributeError "fn"
            else if detect_deadlock (NList args) then ethrow TypeError "yueval: irreducible expression"
            else irreducible
        end
    end
  else if teqb nm (lit "isatom") then
    one (fun x => eret (NInt (match x with NAtom _ | NVar _ _ => 1 | _ => 0 end)))
  else if teqb nm (lit "__PASSAGE__") then
    one (fun x =>
      match list_of x with
      | None => ethrow TypeError "yueval: list expected"
      | Some l =>
          let passage_max := (Z.of_nat (length l) - 1)%Z in
          let! _ := lift_m (modify (set_repeat (e_passage ec <? passage_max)%Z)) in
          if (e_passage ec <=? passage_max)%Z then
            match nth_error l (norm_index (length l) (e_passage ec)) with
            | Some v => eret v
            | None => ethrow IndexError "list index out of range"
            end
          else eret NNone
      end)
  else (* skip *)
    match args with
    | _ :: _ => ethrow TypeError "yueval: no arguments of constant expected"
    | [] => eret NSkip
    end.

(** [l[ pos ] if pos < len( l ) else None]; yugen.py 3285-3289 *)
Definition subscript (l : list node) (pos : Z) : E node :=
  let n := Z.of_nat (length l) in
  if (pos <? n)%Z then
    let i := if (pos <? 0)%Z then (n + pos)%Z else pos in
    if (i <? 0)%Z then ethrow IndexError "list index out of range"
    else match nth_error l (Z.to_nat i) with
         | Some v => eret v
         | None => ethrow IndexError "list index out of range"
         end
  else eret NNone.

(** APPLY -- str: the substitutions; yugen.py 3390-3394 *)
Definition param_mark (name : text) : text := lit "($" ++ name ++ lit ")".
Fixpoint format_args (i : nat) (args : list node) (s : text) : text :=
  match args with
  | [] => s
  | a :: r => format_args (S i) r (replace (param_mark (nat_text i)) (plain a) s)
  end.
Fixpoint format_named (named : list (source * node)) (s : text) : text :=
  match named with
  | [] => s
  | (v, a) :: r => format_named r (replace (param_mark (s_txt v)) (plain a) s)
  end.
Fixpoint eval_named (named : list (source * node)) : E (list (source * node)) :=
  match named with
  | [] => eret []
  | (v, a) :: r => let! a' := self a in let! r' := eval_named r in eret ((v, a') :: r')
  end.

(** APPLY -- list; yugen.py 3406-3415 *)
Fixpoint chain (args : list node) (x : node) : E node :=
  match args with
  | [] => eret x
  | f :: r => let! y := self (NApply f [x] [] None 0) in chain r y
  end.
Fixpoint foreach (args : list node) (items : list node) : E (list node) :=
  match items with
  | [] => eret []
  | x :: r =>
      let! y := chain args x in
      let! l := foreach args r in
      eret (match y with NNone => l | _ => y :: l end)
  end.

(** A lambda or macro closure being applied *)
Record closure := Clo {
  cl_env : frame; cl_late : list (text * list text); cl_dflt : list (text * node);
  cl_node : frame -> node
}.
Definition as_closure (call : option source) (fn : node) : option closure :=
  match fn with
  | NLClosure f env late dflt => Some (Clo env late dflt (fun e => NLClosure f e late dflt))
  | NMClosure f env decl _ => Some (Clo env [] [] (fun e => NMClosure f e decl call))
  | _ => None
  end.

(** APPLY -- L_CLOSURE | M_CLOSURE; yugen.py 3309-3365 *)
Definition bind_param (c : closure) (var : text) (v : node)
  (args : list node) (named : list (source * node)) (file : option text) (pos : Z) : E node :=
  let! v := (match dict_get var (cl_late c) with
             | Some late =>
                 self (NLClosure v (fold_left (fun f k => frame_set k NBound f) late []) [] [])
             | None => eret v
             end) in
  let e' := frame_set var v (cl_env c) in
  let done := match named, args with
              | [], [] => match unassigned e' with
                          | None => true
                          | Some u => negb (dict_mem u (cl_dflt c))
                          end
              | _, _ => false
              end in
  if done then self (cl_node c e')
  else self (NApply (cl_node c e') args named file pos).
Definition apply_closure (c : closure) (args : list node) (named : list (source * node))
  (file : option text) (pos : Z) : E node :=
  match named with
  | (var, val) :: named' =>
      match dict_get (s_txt var) (cl_env c) with
      | None => ethrow TypeError "yueval: function has no parameter"
      | Some old =>
          let! _ := (match old with NBound => eret tt
                     | _ => ewarn "parameter is already assigned with value" end) in
          let! v := self val in
          bind_param c (s_txt var) v args named' file pos
      end
  | [] =>
      match args with
      | _ :: _ =>
          match unassigned (cl_env c) with
          | None =>
              let! _ := ewarn "unused argument(s)" in self (cl_node c (cl_env c))
          | Some var =>
              if teqb var va_args then bind_param c var (NList args) [] [] file pos
              else
                let! (v, args') := list_eval_1 args in
                match v with
                | None => eret (NApply (cl_node c (cl_env c)) args' [] file pos)
                | Some v => bind_param c var v args' [] file pos
                end
          end
      | [] =>
          match unassigned (cl_env c) with
          | None => self (cl_node c (cl_env c))
          | Some var =>
              match dict_get var (cl_dflt c) with
              | None => eret (cl_node c (cl_env c))
              | Some d => let! v := self d in bind_param c var v [] [] file pos
              end
          end
      end
  end.

Definition named_unexpected {A} (named : list (source * node)) (k : E A) : E A :=
  match named with
  | [] => k
  | _ => ethrow TypeError "yueval: unexpected named argument"
  end.

(** APPLY -- str; yugen.py 3377-3395 *)
Definition apply_str (fn : node) (s : text) (args : list node) (named : list (source * node))
  (file : option text) (pos : Z) : E node :=
  match named, args with
  | [], [] => eret fn
  | _, _ =>
      let! named := eval_named named in
      if forallb (fun e => is_term (snd e)) named && is_term (NList args) then
        eret (NStr (raw (format_named named (format_args 0 args s))))
      else eret (NApply fn args named file pos)
  end.

(** APPLY -- int | float; yugen.py 3273-3294 *)
Definition apply_number (fn : node) (i : Z) (args : list node) (file : option text) (pos : Z) : E node :=
  match args with
  | [] => eret fn
  | _ =>
      if is_term (NList args) then
        match args with
        | [a] => match list_of a with Some l => subscript l i | None => subscript args i end
        | _ => subscript args i
        end
      else eret (NApply fn args [] file pos)
  end.

(** APPLY; yugen.py 3190-3426 *)
Definition eval_apply (fn : node) (args : list node) (named : list (source * node))
  (file : option text) (pos : Z) : E node :=
  let call := match fn with NVar _ a => Some a | _ => None end in
  let! fn := self fn in
  let! args := eval_list args in
  match as_closure call fn with
  | Some c => apply_closure c args named file pos
  | None =>
      match fn with
      | NBuiltin a => named_unexpected named (apply_builtin a args file pos)
      | NSpecial a => named_unexpected named (apply_special a args file pos)
      | NInt z => named_unexpected named (apply_number fn z args file pos)
      | NBool b => named_unexpected named (apply_number fn (if b then 1 else 0)%Z args file pos)
      | NFloat t => named_unexpected named (apply_number fn (e_float_int ec t) args file pos)
      | NText _ _ _ | NT _ _ =>
          match args, named with
          | [], [] => self fn
          | _, _ => ethrow TypeError "yueval: no arguments of text expected"
          end
      | NLazy a => self (NApply a args named file pos)
      | NAtom a =>
          match args, named with
          | [], [] => let! _ := ewarn "application of unbound atom" in eret fn
          | _, _ => ethrow TypeError "yueval: no arguments of unbound atom expected"
          end
      | NList l => named_unexpected named (let! r := foreach args l in eret (NList r))
      | NSkip => eret NSkip
      | NNone => eret NNone
      | _ =>
          match str_of fn with
          | Some s => apply_str fn s args named file pos
          | None => eret (NApply fn args named file pos)
          end
      end
  end.

(** VAR; yugen.py 3429-3462 *)
Definition eval_var (reg : region) (a : source) : E node :=
  let! e := get_env in
  match lookup e (s_txt a) with
  | Some NBound => eret (NVar reg a)
  | Some v => eret v
  | None =>
      match reg with
      | RLate => eret (NVar reg a)
      | RList (_ :: _) => ethrow TypeError "yueval: undefined variable"
      | RList [] =>
          let! b := find_builtin (s_txt a) in
          match b with
          | Some _ => eret (NBuiltin a)
          | None =>
              if is_special (s_txt a) then eret (NSpecial a)
              else if has_char 45 (s_txt a) then eret (NVar RLate a)
              else eret (NAtom a)
          end
      end
  end.

(** LAMBDA; yugen.py 3465-3493 *)
Fixpoint list_to_bound (l : list node) : option (list (list source * source * node)) :=
  match l with
  | [] => Some []
  | NAtom a :: r => option_map (cons ([], a, NNone)) (list_to_bound r)
  | _ :: _ => None
  end.
Fixpoint lambda_loop (b : list (list source * source * node))
  (late : list (text * list text)) (dflt : list (text * node)) (f : frame)
  : E (list (text * list text) * list (text * node) * frame) :=
  match b with
  | [] => eret (late, dflt, f)
  | (lt, var, d) :: r =>
      let late := match lt with [] => late | _ => dict_set (s_txt var) (map s_txt lt) late end in
      let! dflt := (match d with
                    | NNone => eret dflt
                    | _ => let! v := self d in eret (dict_set (s_txt var) v dflt)
                    end) in
      let var := if teqb (s_txt var) (lit "...") then va_args else s_txt var in
      lambda_loop r late dflt (frame_set var NBound f)
  end.
Definition eval_lambda (b : list (list source * source * node)) (l_form : node) : E node :=
  let! (late, dflt, f) := lambda_loop b [] [] [] in
  self (NLClosure l_form f late dflt).

(** the assignment part of SET | LET; yugen.py 3521-3541 *)
Fixpoint assign_list (vars : list source) (vals : list node) (f : frame) : E frame :=
  match vars with
  | [] => eret f
  | v :: r =>
      match vals with
      | x :: vals' => assign_list r vals' (frame_set (s_txt v) x f)
      | [] => let! _ := ewarn "there is nothing to assign" in
              assign_list r [] (frame_set (s_txt v) NNone f)
      end
  end.
Definition eval_binding (lv : lval) (ast : node) : E frame :=
  let vars := match lv with LAtom a => [a] | LList l => l end in
  let f0 := fold_left (fun f v => frame_set (s_txt v) NBound f) vars [] in
  let! (v, f1) := in_frame f0 (self ast) in
  match lv with
  | LAtom a => eret (frame_set (s_txt a) v f1)
  | LList l =>
      match list_of v with
      | Some vals => assign_list l vals f1
      | None => eret (fold_left (fun f x => frame_set (s_txt x) v f) l f1)
      end
  end.
Definition output_var : text := lit "__OUTPUT_FILE__".
Definition eval_set (lv : lval) (ast : node) : E node :=
  match lv with
  | LAtom a =>
      if teqb (s_txt a) output_var then
        let! v := self ast in
        let! _ := (match str_of v with
                   | Some t => lift_m (modify (set_output (unq (e_parse ec) t)))
                   | None => ewarn "cannot assign a non-string value to __OUTPUT_FILE__"
                   end) in
        eret NNone
      else let! f := eval_binding lv ast in eret (NEnv f)
  | _ => let! f := eval_binding lv ast in eret (NEnv f)
  end.

(** M_CLOSURE; yugen.py 3567-3575 *)
Fixpoint expand (f : frame) (s : text) : text :=
  match f with
  | [] => s
  | (k, v) :: r => expand r (replace (param_mark k) (plain_back v) s)
  end.

(** the parser, as called by EVAL *)
Variable parse : text -> M (list node).

(** EVAL; yugen.py 3578-3602 *)
Definition is_set (x : node) : bool := match x with NSet _ _ => true | _ => false end.
Definition eval_eval (ast : node) (decl call : option source) : E node :=
  let! v := self ast in
  match str_of v with
  | None => eret (NEval v decl call)
  | Some t =>
      let code := match v with
                  | NStr _ => let u := strip (unq (e_parse ec) t) in
                              if startswith (lit "($") u then u else lit "($" ++ u ++ lit ")"
                  | _ => t
                  end in
      let! l := lift_m (bind get_st (fun st =>
                  let key := nat_text (length (y_inclusion st)) in
                  let d := match decl with Some s => DSrc s | None => DNone end in
                  bind (modify (fun st =>
                          set_source (dict_set key (d, code) (y_source st))
                            (set_inclusion (y_inclusion st ++ [call]) st)))
                       (fun _ => parse key))) in
      match l with
      | [] => eret NNone
      | [x] => if is_set x then eret (NEmbed (NT l (IndStr []))) else self x
      | _ => if existsb is_set l then eret (NEmbed (NT l (IndStr [])))
             else self (NT l (IndStr []))
      end
  end.

(** INFIX; yugen.py 3629-3653 *)
Definition infix_frame (e : env) (names : list text) : frame :=
  fold_left (fun f n => match lookup e n with
                        | Some _ => frame_set n (NVar (RList []) (raw n)) f
                        | None => f
                        end) names [].

(** EMIT; yugen.py 3672-3695 *)
Definition eval_emit (reg : region) (a : source) (ast : node) : E node :=
  let! e := get_env in
  match lookup e (s_txt a) with
  | None => ethrow TypeError "yueval: undefined variable"
  | Some NBound => eret (NEmit reg a ast)
  | Some v =>
      let '(result, v') := match v with
                           | NList (x :: l) => (x, NList l)
                           | NT (x :: l) i => (x, NT l i)
                           | NList [] | NT [] _ => (NNone, v)
                           | _ => (v, v)
                           end in
      let! _ := mod_env (update_variable (s_txt a) v') in
      if truthy ast then
        let! w := self (NApply ast [v'] [] None 0) in
        let! _ := mod_env (update_variable (s_txt a) w) in
        eret result
      else eret result
  end.

(** one turn of the loop of yueval; yugen.py 3069-3750 *)
Definition eval_body (x : node) : E node :=
  match x with
  | NText l _ _ => self (NT l (IndStr []))
  | NT l i => eval_T l i
  | NApply fn args named file pos => eval_apply fn args named file pos
  | NVar reg a => eval_var reg a
  | NLambda b f => eval_lambda b f
  | NLambdaV reg a f =>
      let! e := get_env in
      match lookup e (s_txt a) with
      | Some NBound => eret x
      | Some v =>
          match list_of v with
          | Some l =>
              match list_to_bound l with
              | Some b => eval_lambda b f
              | None => ethrow TypeError "yueval: illegal parameters list"
              end
          | None => ethrow TypeError "yueval: illegal parameters list"
          end
      | None => ethrow TypeError "yueval: illegal parameters list"
      end
  | NLClosure f env late dflt =>
      let! (v, env') := in_frame env (self f) in
      match unassigned env with
      | Some _ => eret (NLClosure v env' late dflt)
      | None => eret v
      end
  | NSet lv ast => eval_set lv ast
  | NLet lv ast form =>
      let! f := eval_binding lv ast in
      let! (v, _) := in_frame f (self form) in eret v
  | NSetClosure form env =>
      let! (v, env') := in_frame env (self form) in
      if is_term v then eret v else eret (NSetClosure v env')
  | NMacro name pars body =>
      eret (NEnv [(s_txt name,
             NMClosure body (fold_left (fun f p => frame_set (s_txt p) NBound f) pars [])
                       (Some name) None)])
  | NMClosure f env decl call =>
      let! (env', b) := eval_local env in
      if b then self (NEval (NRaw (expand env' f)) decl call)
      else eret (NMClosure f env' decl call)
  | NEval ast decl call => eval_eval ast decl call
  | NCond c l1 l0 =>
      let! v := self c in
      if is_term v then self (if truthy v then l1 else l0)
      else eret (NCondClosure v l1 l0)
  | NCondClosure c l1 l0 =>
      let! v := self c in
      if is_term v then
        let! w := self (if truthy v then l1 else l0) in self w
      else
        let! l1' := self l1 in
        let! l0' := self l0 in
        eret (NCondClosure v l1' l0')
  | NInfix ast file pos =>
      let! v := self ast in
      match str_of v with
      | None => eret (NInfix v file pos)
      | Some t =>
          let! names := lift_r (e_names ec (lstrip t)) in
          let! e := get_env in
          self (NInfixClosure t (infix_frame e names) file pos)
      end
  | NInfixClosure t env file pos =>
      let! (env', b) := eval_local env in
      if b then
        let! v := lift_r (e_infix ec (lstrip t) env') in eret (const_result v)
      else eret (NInfixClosure t env' file pos)
  | NEmit reg a ast => eval_emit reg a ast
  | NList l => let! l' := list_loop [] l in eret (NList l')
  | NEmbed a => let! v := self a in eret (NEmbed v)
  | NTrim a ind => let! v := self a in eret (NTrim v ind)
  | _ => eret x
  end.
End Body.
End Eval.

(** yueval with recursion budget [n] *)
Fixpoint yueval (ec : ectx) (parse : text -> M (list node)) (n : nat) (x : node) : E node :=
  match n with
  | O => fun _ _ => Fuel
  | S m => eval_body ec (yueval ec parse m) parse x
  end.
