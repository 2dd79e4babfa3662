(** * Vocabulary for the statements about the shell *)
From Coq Require Import List NArith ZArith Bool.
From Verif Require Import PyStr Ast Shell.
Import ListNotations.
Open Scope N_scope.

(** A file name without directory part *)
Definition simple (n : text) : Prop := ~ In 47 n.
(** A stem an extension can be attached to: its last component has a character
    other than a dot *)
Definition stem (p : text) : Prop := exists d b, p = d ++ b /\ (d = [] \/ exists e, d = e ++ [47]) /\
  simple b /\ Exists (fun c => c <> 46) b.
(** An extension without its dot *)
Definition ext (e : text) : Prop := e <> [] /\ ~ In 46 e /\ ~ In 47 e.
(** yu in any letter case *)
Definition any_yu (y : text) : Prop := exists a b, y = [a; b] /\ (a = 121 \/ a = 89) /\ (b = 117 \/ b = 85).

(** The complete content [d] is stored under [fn] *)
Definition holds (s : fs) (fn d : text) : Prop := exists f, s fn = Some f /\ f_data f = d.

(** Passes of one file: [chain run k w oks w'] *)
Inductive passes {W : Type} (run : nat -> W -> outcome * W) : nat -> W -> bool -> nat -> W -> Prop :=
| pa_fail k w o w' : run k w = (o, w') -> o_ok o = false -> passes run k w false 1 w'
| pa_last k w o w' : run k w = (o, w') -> o_ok o = true -> o_repeat o = false -> passes run k w true 1 w'
| pa_more k w o w1 ok n w' : run k w = (o, w1) -> o_ok o = true -> o_repeat o = true ->
    passes run (S k) w1 ok n w' -> passes run k w ok (S n) w'.
(** All files in turn; [bad] of them failed *)
Inductive all_files {W : Type} (run : text -> nat -> W -> outcome * W) : list text -> W -> Z -> W -> Prop :=
| af_nil w : all_files run [] w 0 w
| af_cons fn files w ok n w1 bad w' : passes (run fn) 0 w ok n w1 -> all_files run files w1 bad w' ->
    all_files run (fn :: files) w (if ok then bad else bad + 1)%Z w'.

(** A typed line that is the command [c] *)
Definition is_command (c l : text) : Prop :=
  exists a b, l = a ++ c ++ b /\ Forall (fun x => py_isspace x = true) a /\ Forall (fun x => py_isspace x = true) b.
Definition plain_line (l : text) : Prop := ~ is_command (lit "exit") l /\ ~ is_command (lit "test") l.
(** What was typed: blocks each ended by the run command, a rest, and possibly
    the exit command followed by anything *)
Definition typed (blocks : list (list text * text)) (rest ending : list text) : list text :=
  concat (map (fun b => fst b ++ [snd b]) blocks) ++ rest ++ ending.
Definition session_ok (blocks : list (list text * text)) (rest ending : list text) : Prop :=
  Forall (fun b => Forall plain_line (fst b) /\ is_command (lit "test") (snd b)) blocks /\
  Forall plain_line rest /\
  (ending = [] \/ exists x more, ending = x :: more /\ is_command (lit "exit") x).
(** the texts that are more than white space, in their order *)
Inductive without_blank : list text -> list text -> Prop :=
| WBNil : without_blank [] []
| WBKeep t l r : Exists (fun c => py_isspace c = false) t -> without_blank l r -> without_blank (t :: l) (t :: r)
| WBDrop t l r : Forall (fun c => py_isspace c = true) t -> without_blank l r -> without_blank (t :: l) r.
Definition block_text (ls : list text) : text := concat (map (fun l => l ++ [10]) ls).

(** ** Histories of a cached output
    Files other than the output are edited (or deleted) and the source is loaded,
    at times that never decrease. *)
Section History.
Variables (cfg : pcfg) (pp : fs -> ppres) (fn fn_o : text).
Definition tracked : list text := g_deps cfg ++ [fn].
(** What the preprocessor yields is determined by the tracked files. *)
Definition determined : Prop := forall s1 s2,
  (forall x, In x tracked -> option_map f_data (s1 x) = option_map f_data (s2 x)) -> pp s1 = pp s2.
Inductive history : Z -> fs -> Prop :=
| h_start now s : s fn_o = None -> (forall x f, s x = Some f -> (f_mtime f <= now)%Z) -> history now s
| h_edit now s t x d ro : (now <= t)%Z -> x <> fn_o -> history now s ->
    history t (fs_set x (Some (File d t ro)) s)
| h_delete now s t x : (now <= t)%Z -> history now s -> history t (fs_set x None s)
| h_load now s t v s' st : (now <= t)%Z -> history now s ->
    proc_stream cfg pp fn fn_o t [] s = (v, s', st) -> history t s'.
End History.

(** The value a configuration variable has after the defaults, the directory
    settings and the file settings were executed in this order *)
Fixpoint last_of (k : text) (l : cdict) : option cval :=
  match l with
  | [] => None
  | (k', v) :: r => match last_of k r with
                    | Some w => Some w
                    | None => if teqb k k' then Some v else None
                    end
  end.
Definition assigned (o : option cdict) : cdict := match o with Some l => l | None => [] end.
Definition effective (defaults : cdict) (global loc : option cdict) (k : text) : option cval :=
  last_of k (defaults ++ [(lit "directory", VList []); (lit "dependency", VList []); (lit "pp_define", VList [])]
             ++ assigned global ++ assigned loc).
(** The value in force for a setting with default [d]: whole numbers, truth
    values and, for three settings, lists are accepted *)
Definition in_force (defaults : cdict) (global loc : option cdict) (k : text) (d : cval) : cval :=
  match effective defaults global loc k with
  | Some (VInt z) => VInt z
  | Some (VBool b) => VBool b
  | Some (VList l) => if existsb (teqb k) [lit "pp_define"; lit "dependency"; lit "directory"] then VList l else d
  | _ => d
  end.
