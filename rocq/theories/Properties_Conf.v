(** * File names and options: C58 *)
From Coq Require Import List NArith ZArith Bool String.
From Verif Require Import PyStr LexSpec Ast Lex Parse ParseSpec PpSpec Shell Pp PpCases ProtectSpec ProtectCases ConfSpec ConfFacts ConfCases.
Import ListNotations.
Open Scope list_scope.
Open Scope N_scope.

(** ** C58: the names of the files and the options settle how a source is read *)
(** The source is read as Python if the file of the output is a Python source. *)
Theorem C58_language w cfg input p n : file_of p n -> (c_python (run_ctx w cfg input (Some p)) = true <-> python_file n).
Proof. exact (language w cfg input p n). Qed.
Print Assumptions C58_language.
Theorem C58_language_without_output w cfg input : c_python (run_ctx w cfg input None) = false.
Proof. exact (language_default w cfg input). Qed.
Print Assumptions C58_language_without_output.
(** The comments skipped are those the option asks for. *)
Theorem C58_comments w cfg input output m :
  comments_of (c_python (run_ctx w cfg input output)) (k_skip cfg) m -> c_skip (run_ctx w cfg input output) = m.
Proof. exact (comments w cfg input output m). Qed.
Print Assumptions C58_comments.
(** In messages and locations the source has the name of its file, without the directory. *)
Theorem C58_source_name w cfg output p n : file_of p n -> p <> [] -> c_main (run_ctx w cfg (Some p) output) = n.
Proof. exact (source_name w cfg output p n). Qed.
Print Assumptions C58_source_name.
(** Libraries are looked for in the directory of the source first, then in those of the option, then in the
    directory of the libraries. *)
Theorem C58_search_path w cfg output p d : directory_of p d -> p <> [] -> c_dirs (run_ctx w cfg (Some p) output) = d :: k_dirs cfg ++ [w_lib w].
Proof. exact (search_path w cfg output p d). Qed.
Print Assumptions C58_search_path.
(** Every path has a file and a directory. *)
Theorem C58_every_path p : (exists n, file_of p n) /\ (exists d, directory_of p d).
Proof. exact (every_path p). Qed.
Print Assumptions C58_every_path.
Example C58_case : file_of (lit "src//a.PY") (lit "a.PY") /\ directory_of (lit "src//a.PY") (lit "src") /\ python_file (lit "a.PY") /\
  ~ python_file (lit ".py") /\ comments_of false 3 SkipC.
Proof. exact conf_case. Qed.
(** A run leaves the comments and literals of the language alone that the name of the output and the option tell. *)
Theorem C58_run_leaves_comments w cfg d n t input p f python m pr :
  k_browse cfg = false -> k_reduce cfg = false -> ~ In 254 t -> ~ In 255 t ->
  file_of p f -> (python = true <-> python_file f) -> comments_of python (k_skip cfg) m ->
  exists t', unified t t' /\
    ((python = true -> no_magic is_word t') -> protected python m [] t' ->
     pp w cfg (S d) (S (S (S n))) t input (Some p) pr = Ok (PP true t' None None false 0)).
Proof. exact (comments_run w cfg d n t input p f python m pr). Qed.
Print Assumptions C58_run_leaves_comments.
Example C58_run_case : file_of (lit "out/a.c") (lit "a.c") /\ (false = true <-> python_file (lit "a.c")) /\ comments_of false (k_skip (config0 3 false false)) SkipC /\
  protected false SkipC [] guarded_source.
Proof. exact comments_run_case. Qed.
