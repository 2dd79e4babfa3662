(** * The shell: files, passes, configuration, interactive loop

    Models /repo/pp/yup.py 70-99, 182-257, 371-433, 436-468, 503-613 and
    /repo/__main__.py 22-23.  The preprocessor proper ([_pp], 290-368) is a
    parameter here: a function from what it reads to what it returns. *)

From Coq Require Import List NArith ZArith Bool.
From Verif Require Import PyStr Ast Lex.
Import ListNotations.
Open Scope N_scope.

(** ** Names of output files *)

Definition e_yugen := lit ".yugen".  (* 70 *)
Definition e_bak := lit ".bak".      (* 73 *)
Definition e_ast := lit ".ast".      (* 74 *)

(** re_e_yu.search( e ), yup.py 72: the pattern is a dot, the letters yu in any
    case, an optional group (hyphen, one or more characters other than a dot) and
    the end of the string.  [e] is an extension: it starts with its only dot, so
    a match must start there.  The end mark also matches before a final line
    feed, in which case the line feed is not part of the group unless the group
    takes it (the group is greedy and accepts line feeds).
    Result: [None] no match, [Some None] without group, [Some (Some g)] with group. *)
Definition re_e_yu (e : text) : option (option text) :=
  if startswith (lit ".yu") (lower e) then
    match skipn 3 e with
    | [] => Some None
    | [c] => if c =? 10 then Some None else None
    | c :: r => if (c =? 45) && negb (has_char c_dot r) then Some (Some r) else None
    end
  else None.

(** _output_fn; yup.py 371-391; [dir] is shell.output_dir *)
Definition output_fn (dir fn : text) : text :=
  let base := match dir with [] => fn | _ => path_join dir (basename fn) end in
  let '(fn_o, e) := splitext base in
  match e with
  | [] => fn_o ++ e_yugen
  | _ =>
      match re_e_yu e with
      | None => fn_o ++ e_yugen ++ e
      | Some (Some g) => fn_o ++ [c_dot] ++ g
      | Some None =>
          match snd (splitext fn_o) with
          | [] => fn_o ++ e_yugen
          | _ => fn_o
          end
      end
  end.

(** ** File system *)

Record file := File { f_data : text; f_mtime : Z; f_ro : bool }.
Definition fs := text -> option file.
Definition fs_set (fn : text) (v : option file) (s : fs) : fs :=
  fun x => if teqb x fn then v else s x.
Definition isfile (s : fs) (fn : text) : bool :=
  match s fn with Some _ => true | None => false end.

(** System calls issued by the shell. *)
Inductive act :=
| AChmod (fn : text) (ro : bool)      (* os.chmod *)
| ARemove (fn : text)                 (* os.remove *)
| ARename (a b : text)                (* os.rename *)
| AOpen (fn : text)                   (* open( fn, mode='w' ): create or truncate *)
| AWrite (fn : text) (t : text).      (* f.write, flushed by the end of the with block *)

(** One call at time [now]; [None]: OSError. *)
Definition apply_act (now : Z) (a : act) (s : fs) : option fs :=
  match a with
  | AChmod fn ro =>
      match s fn with
      | Some f => Some (fs_set fn (Some (File (f_data f) (f_mtime f) ro)) s)
      | None => None
      end
  | ARemove fn => match s fn with Some _ => Some (fs_set fn None s) | None => None end
  | ARename a b =>
      match s a with
      | Some f => Some (fs_set b (Some f) (fs_set a None s))
      | None => None
      end
  | AOpen fn =>
      match s fn with
      | Some f => if f_ro f then None else Some (fs_set fn (Some (File [] now false)) s)
      | None => Some (fs_set fn (Some (File [] now false)) s)
      end
  | AWrite fn t =>
      match s fn with
      | Some f => Some (fs_set fn (Some (File (f_data f ++ t) now (f_ro f))) s)
      | None => None
      end
  end.

(** What the outside world does at a call: it succeeds (unless [apply_act]
    fails), it fails with an OSError, or the process dies.  A failing or
    interrupted write may have written the first [k] characters. *)
Inductive fate := Done | Fails (k : nat) | Dies (k : nat).
Inductive status := Completed | Raised | Crashed.

Definition partial_act (now : Z) (a : act) (k : nat) (s : fs) : fs :=
  match a with
  | AWrite fn t => match apply_act now (AWrite fn (firstn k t)) s with Some s' => s' | None => s end
  | _ => s
  end.

(** Run the calls at time [now] under given fates (missing fates: [Done]). *)
Fixpoint run_acts (now : Z) (acts : list act) (fates : list fate) (s : fs) : fs * status :=
  match acts with
  | [] => (s, Completed)
  | a :: rest =>
      match hd Done fates with
      | Done => match apply_act now a s with
                | Some s' => run_acts now rest (tl fates) s'
                | None => (s, Raised)
                end
      | Fails k => (partial_act now a k s, Raised)
      | Dies k => (partial_act now a k s, Crashed)
      end
  end.

(** shell_backup; yup.py 222-228 *)
Definition backup_acts (s : fs) (fn : text) : list act :=
  if isfile s fn then
    (if isfile s (fn ++ e_bak)
     then [AChmod (fn ++ e_bak) false; ARemove (fn ++ e_bak)] else [])
    ++ [ARename fn (fn ++ e_bak)]
  else [].
(** shell_savetofile; yup.py 231-233 *)
Definition save_acts (fn t : text) : list act := [AOpen fn; AWrite fn t].

(** What [_pp] yields: ok, the text (an AST dump if not ok), the browse file
    content in browse mode, the feedback variables, the removed header lines. *)
Record ppres := PP {
  p_ok : bool; p_plain : text; p_json : option text;
  p_output : option text;    (* feedback.output_file *)
  p_repeat : bool;           (* feedback.repeat *)
  p_shrink : nat             (* yushell.shrink *)
}.

(** The calls of _pp_stream after [_pp]; yup.py 401-429, and the final fn_o *)
Definition stream_fn (r : ppres) (fn_o : text) : text :=
  if p_ok r then
    match p_output r with Some (c :: t) => c :: t | _ => fn_o end
  else
    match p_plain r with [] => fn_o | _ => fst (splitext fn_o) ++ e_ast end.
Definition stream_acts (read_only : bool) (r : ppres) (fn_o : text) (s : fs) : list act :=
  let fn := stream_fn r fn_o in
  if p_ok r then
    backup_acts s fn ++ save_acts fn (p_plain r)
    ++ (if read_only then [AChmod fn true] else [])
    ++ (match p_json r with
        | Some j => save_acts (fn ++ lit ".json") j
        | None => []
        end)
  else match p_plain r with
       | [] => []
       | t => save_acts fn t
       end.

(** _pp_stream; yup.py 394-433: (ok, plain, fn_o).  An OSError while writing is
    caught and logged; [ok] keeps its value. *)
Definition pp_stream (now : Z) (read_only : bool) (r : ppres) (fn_o : text)
  (fates : list fate) (s : fs) : (bool * text * text) * fs * status :=
  let '(s', st) := run_acts now (stream_acts read_only r fn_o s) fates s in
  ((p_ok r, p_plain r, stream_fn r fn_o), s', st).

(** ** Passes, files, exit status; yup.py 436-468, 581-594 *)

(** [_pp_file] seen from the loop: whether it succeeded and feedback.repeat. *)
Record outcome := Out { o_ok : bool; o_repeat : bool }.

(** The loop over the passages of one file.  [run k w]: process the file with
    config.passage = k in world [w].  Budget [n]; [None]: still repeating. *)
Fixpoint pass_loop {W : Type} (n : nat) (run : nat -> W -> outcome * W) (k : nat) (w : W)
  : option (bool * W) :=
  match n with
  | O => None
  | S m =>
      let '(o, w') := run k w in
      if negb (o_ok o) then Some (false, w')
      else if negb (o_repeat o) then Some (true, w')
      else pass_loop m run (S k) w'
  end.
(** the loop over the files: number of failures *)
Fixpoint file_loop {W : Type} (n : nat) (run : text -> nat -> W -> outcome * W)
  (files : list text) (failed : Z) (w : W) : option (Z * W) :=
  match files with
  | [] => Some (failed, w)
  | fn :: rest =>
      match pass_loop n (run fn) 0 w with
      | Some (ok, w') => file_loop n run rest (if ok then failed else failed + 1)%Z w'
      | None => None
      end
  end.
(** [return f_failed << 2] *)
Definition cli_value (failed : Z) : Z := Z.shiftl failed 2.
(** exit status of [sys.exit( v )] for an integer: the low 8 bits (POSIX) *)
Definition exit_status (v : Z) : Z := (v mod 256)%Z.
(** yup.py 619-621 as a script *)
Definition script_status (failed : Z) : Z := exit_status (cli_value failed).
(** main() of /repo/__main__.py 22-23 (the console script) and
    /repo/pp/__main__.py discard the value of cli() *)
Definition console_status (failed : Z) : Z := exit_status 0.

(** _pp_file; yup.py 436-468, without the printing: [None] input cannot be opened *)
Definition pp_file (pp : text -> text -> text -> ppres) (dir : text)
  (read : fs -> text -> option text) (now : Z) (read_only : bool)
  (fn : text) (fates : list fate) (s : fs) : option ((bool * text * text) * fs * status) :=
  match read s fn with
  | None => None
  | Some t => let fn_o := output_fn dir fn in
              Some (pp_stream now read_only (pp t fn fn_o) fn_o fates s)
  end.

(** ** proc_stream: skipping the run when the output is newer; yup.py 512-543 *)
Record pcfg := PCfg { g_force : bool; g_deps : list text; g_read_only : bool }.
Inductive served := FromCache (data : text) (shrink : nat) | Generated (ok : bool) (data : text) (shrink : nat).
(** [all( _getmtime( d ) < t for d in deps )]; [None]: a dependency is missing *)
Fixpoint deps_older (s : fs) (t : Z) (deps : list text) : option bool :=
  match deps with
  | [] => Some true
  | d :: r => match s d with
              | None => None
              | Some f => if (f_mtime f <? t)%Z then deps_older s t r else Some false
              end
  end.
Definition first_line (t : text) : text := firstn (getline_len t) t.
Definition proc_stream (cfg : pcfg) (pp : fs -> ppres) (fn fn_o : text)
  (now : Z) (fates : list fate) (s : fs) : served * fs * status :=
  let hit :=
    if g_force cfg then None
    else match s fn_o with
         | None => None
         | Some o =>
             match deps_older s (f_mtime o) (g_deps cfg ++ [fn]) with
             | Some true => Some (f_data o)
             | _ => None
             end
         end in
  match hit with
  | Some data =>
      let src := match s fn with Some f => f_data f | None => [] end in
      (FromCache data (match find_sub (lit "coding:") (first_line src) with
                       | Some _ => 1 | None => 2 end)%nat, s, Completed)
  | None =>
      let r := pp s in
      let '((ok, data, _), s', st) := pp_stream now (g_read_only cfg) r fn_o fates s in
      (Generated ok data (p_shrink r), s', st)
  end.

(** ** Configuration; yup.py 182-208, 243-257 *)

(** Python values that configuration variables take *)
Inductive cval := VInt (z : Z) | VBool (b : bool) | VStr (t : text) | VList (l : list text) | VOther.
Definition cdict := list (text * cval).

(** An executed script assigns variables; a script that fails midway has made
    the assignments up to the failure (187: the error is only logged). *)
Definition exec_script (s : option cdict) (ctx : cdict) : cdict :=
  match s with
  | None => ctx                       (* not a file *)
  | Some assigns => fold_left (fun c kv => dict_set (fst kv) (snd kv) c) assigns ctx
  end.
Definition is_cfg_type (v : cval) : bool := match v with VInt _ | VBool _ => true | _ => false end.
(** shell_parse_yuconfig; 191-208: [global], [local] are the assignments of
    .yuconfig and of <source>.yuconfig; [defaults] models yuconfig_defaults() *)
Definition parse_yuconfig (defaults : cdict) (global local : option cdict) : cdict :=
  let ctx := dict_set (lit "pp_define") (VList [])
              (dict_set (lit "dependency") (VList [])
              (dict_set (lit "directory") (VList []) defaults)) in
  let ctx := exec_script local (exec_script global ctx) in
  let cfg := filter (fun kv => is_cfg_type (snd kv)) ctx in
  let keep k c := match dict_get k ctx with
                  | Some (VList l) => dict_set k (VList l) c
                  | _ => c
                  end in
  keep (lit "pp_define") (keep (lit "dependency") (keep (lit "directory") cfg)).

(** The settings assigned by _pp_configure (243-257), with their defaults. *)
Definition setting_defaults : cdict :=
  [ (lit "log_level", VInt 1); (lit "trace_stage", VInt 0);
    (lit "pp_skip_comments", VInt 0); (lit "pp_trim_app_indent", VBool true);
    (lit "pp_reduce_emptiness", VBool true); (lit "pp_browse", VBool false);
    (lit "pp_define", VList []); (lit "warn_unbound_application", VBool true);
    (lit "directory", VList []); (lit "quiet", VBool false); (lit "type_output", VBool false);
    (lit "output_dir", VStr []); (lit "traceback", VInt 1); (lit "read_only", VBool true) ].
Definition cfg_get (cfg : cdict) (k : text) (d : cval) : cval :=
  match dict_get k cfg with Some v => v | None => d end.

(** Global state of the process: the settings (fields of [config], [shell],
    [log], [trace]), the dictionary of built-in names added by pp_define
    (yugen.py 2788-2796, never removed) *)
Record pstate := PState { ps_settings : cdict; ps_builtin : cdict }.
(** _pp_configure; 243-257 *)
Definition pp_configure (cfg : cdict) (st : pstate) : pstate :=
  PState (fold_left (fun acc kd => dict_set (fst kd) (cfg_get cfg (fst kd) (snd kd)) acc)
                    setting_defaults (ps_settings st))
         (ps_builtin st).
(** split at the first colon: x.split( ':', 1 ) *)
Definition split_colon (x : text) : text * option text :=
  match find_sub [58] x with
  | Some i => (firstn i x, Some (skipn (S i) x))
  | None => (x, None)
  end.
(** _update_builtin_from_config; yugen.py 2788-2796 *)
Definition define_one (b : cdict) (x : text) : cdict :=
  let '(k, v) := split_colon x in
  match ps_atom (raw (strip k)) with
  | (rest, Some atom) =>
      match s_txt rest with
      | [] => dict_set (s_txt atom)
                (match v with
                 | Some v => match strip v with [] => VBool true | t => VStr t end
                 | None => VBool true
                 end) b
      | _ => b
      end
  | (_, None) => b
  end.
Definition setting (st : pstate) (k : text) : option cval := dict_get k (ps_settings st).
(** called by yushell() at the start of each processing *)
Definition start_file (st : pstate) : pstate :=
  PState (ps_settings st)
         (match setting st (lit "pp_define") with
          | Some (VList l) => fold_left define_one l (ps_builtin st)
          | _ => ps_builtin st
          end).
(** proc_stream's use: configure, then process *)
Definition process_py (defaults : cdict) (global local : option cdict) (st : pstate) : pstate :=
  start_file (pp_configure (parse_yuconfig defaults global local) st).

(** ** Interactive loop; yup.py 596-613 *)

(** shell_input gives a line or, at end of input, the exit command (211-219). *)
Definition repl_exit := lit "exit".
Definition repl_test := lit "test".
(** [lines]: what [input] returns before end of file.  Result: the texts passed
    to [_pp_test], in order. *)
Fixpoint repl (test : text) (lines : list text) : list text :=
  match lines with
  | [] => []
  | line :: rest =>
      let stripped := strip line in
      if teqb stripped repl_exit then []
      else if teqb stripped repl_test then test :: repl [] rest
      else repl (test ++ line ++ [c_lf]) rest
  end.
(** _pp_test (471-487) processes the text unless it is blank *)
Definition repl_runs (lines : list text) : list text :=
  filter (fun t => match strip t with [] => false | _ => true end) (repl [] lines).
