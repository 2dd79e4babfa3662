(** * What the names of the files and the options mean *)
From Coq Require Import List NArith ZArith String.
From Verif Require Import PyStr Ast Parse.
Import ListNotations.
Open Scope N_scope.

(** The file named by a path: what stands behind the last slash *)
Inductive file_of : text -> text -> Prop :=
| FN_alone n : ~ In 47 n -> file_of n n
| FN_in dir n : ~ In 47 n -> file_of (dir ++ 47 :: n) n.
(** The directory of a path: what stands before the slashes in front of the file; the slashes
    themselves if nothing does *)
Inductive directory_of : text -> text -> Prop :=
| DN_none n : ~ In 47 n -> directory_of n []
| DN_root k n : ~ In 47 n -> directory_of (repeat 47 (S k) ++ n) (repeat 47 (S k))
| DN_dir dir c k n : c <> 47 -> ~ In 47 n -> directory_of (dir ++ c :: repeat 47 (S k) ++ n) (dir ++ [c]).
(** The name of a Python source: something, not only dots, and .py in small or capital letters *)
Inductive python_file : text -> Prop :=
| PF_py name p y : Exists (fun c => c <> 46) name -> p = 112 \/ p = 80 -> y = 121 \/ y = 89 -> python_file (name ++ [46; p; y]).
(** Whose comments are skipped: by the option, nobody's, those of C, those of Python or those of
    the language of the output *)
Inductive comments_of (python : bool) : Z -> skip_mode -> Prop :=
| CM_none : comments_of python 0 SkipNone
| CM_c : comments_of python 1 SkipC
| CM_python : comments_of python 2 SkipPython
| CM_language : comments_of python 3 (if python then SkipPython else SkipC).
(** The language of the output: Python, if its file is a Python source *)
Inductive language_of : option text -> bool -> Prop :=
| LO_none : language_of None false
| LO_python p n : file_of p n -> python_file n -> language_of (Some p) true
| LO_other p n : file_of p n -> ~ python_file n -> language_of (Some p) false.
(** The name of a source: that of its file; without one, the name of the standard input *)
Inductive source_named : option text -> text -> Prop :=
| SN_none : source_named None (lit "<stdin>")
| SN_empty : source_named (Some []) (lit "<stdin>")
| SN_file p n : p <> [] -> file_of p n -> source_named (Some p) n.
(** Where libraries are looked for: the directory of the source, those of the option, that of the libraries *)
Inductive searched (dirs : list text) (lib : text) : option text -> list text -> Prop :=
| SD_none : searched dirs lib None (dirs ++ [lib])
| SD_empty : searched dirs lib (Some []) (dirs ++ [lib])
| SD_file p d : p <> [] -> directory_of p d -> searched dirs lib (Some p) (d :: dirs ++ [lib]).
