(** * Comments and literals of the target language: C09, C47 *)
From Coq Require Import List NArith ZArith Bool String.
From Verif Require Import PyStr LexSpec Ast Lex Parse ParseSpec Final Shell PpSpec Pp PpCases ProtectSpec ProtectFacts ProtectCases ConfSpec ReadCases.
Import ListNotations.
Open Scope list_scope.
Open Scope N_scope.

(** ** C09: comments are left alone when skipping is on *)
(** Wherever the parser stands at a comment, it takes the comment as it is,
    whatever the comment contains and whatever follows. *)
Theorem C09_comment_taken_whole cx imp k c rest f p s :
  target_comment (c_skip cx) c rest ->
  text_item cx imp k (Src (c ++ rest) f p) s = Ok (Src rest f (p + Z.of_nat (List.length c)), Some [NRemark (Src c f p)], s).
Proof. exact (comment_item cx imp k c rest f p s). Qed.
Print Assumptions C09_comment_taken_whole.
(** A run on a text whose constructs are all in comments (and, for C, in
    literals) returns the text. *)
Theorem C09_whole_run w cfg d n t input output pr python sk :
  language_of output python -> comments_of python (k_skip cfg) sk ->
  k_browse cfg = false -> k_reduce cfg = false -> ~ In 254 t -> ~ In 255 t ->
  exists t', unified t t' /\
    ((python = true -> no_magic is_word t') -> protected python sk [] t' ->
     pp w cfg (S d) (S (S (S n))) t input output pr = Ok (PP true t' None None false 0)).
Proof. exact (read_protected_run w cfg d n t input output pr python sk). Qed.
Print Assumptions C09_whole_run.
Example C09_run_case : language_of (Some (lit "a.c")) false /\ comments_of false (k_skip (config0 1 false false)) SkipC /\ protected false SkipC [] guarded_source /\
  ~ In 254 guarded_source /\ ~ In 255 guarded_source /\
  pp world0 (config0 1 false false) 1 4 guarded_source (Some (lit "a.yu-c")) (Some (lit "a.c")) process0 =
    Ok (PP true guarded_source None None false 0).
Proof. exact (conj c_output (conj (CM_c false) guarded_run_case)). Qed.
(** A comment that is never closed makes the run fail. *)
Theorem C09_unclosed_fails w cfg d n t input output pr python sk :
  language_of output python -> comments_of python (k_skip cfg) sk ->
  k_browse cfg = false ->
  exists t', unified t t' /\ forall tail, (python = true -> no_magic is_word t') ->
    unclosed sk tail -> protected python sk tail t' ->
    pp w cfg (S d) (S (S (S n))) t input output pr = Ok (PP false [] None None false 0).
Proof. exact (read_unclosed_run w cfg d n t input output pr python sk). Qed.
Print Assumptions C09_unclosed_fails.
Example C09_unclosed_case : unclosed SkipC (lit "/* ($x)") /\ protected false SkipC (lit "/* ($x)") (lit "a " ++ lit "/* ($x)").
Proof. exact unclosed_case. Qed.

(** ** C47: string and character literals of a C output are left alone *)
Theorem C47_literal_taken_whole cx imp k q body rest f p s :
  c_python cx = false -> q = 34 \/ q = 39 -> literal_inside q body ->
  text_item cx imp k (Src (q :: body ++ q :: rest) f p) s =
  Ok (Src rest f (p + Z.of_nat (List.length body + 2)), Some [NStr (raw (q :: body ++ [q]))], s).
Proof. exact (literal_item cx imp k q body rest f p s). Qed.
Print Assumptions C47_literal_taken_whole.
Theorem C47_whole_run w cfg d n t input output pr :
  k_browse cfg = false -> k_reduce cfg = false -> k_skip cfg = 0%Z -> language_of output false -> ~ In 254 t -> ~ In 255 t ->
  exists t', unified t t' /\
    (protected false SkipNone [] t' -> pp w cfg (S d) (S (S (S n))) t input output pr = Ok (PP true t' None None false 0)).
Proof. exact (read_literal_run w cfg d n t input output pr). Qed.
Print Assumptions C47_whole_run.
Example C47_case : protected false SkipNone [] (lit "s = ""($a \"" '"" ;") /\ literal_inside 34 (lit "($a \"" '").
Proof. exact literal_case. Qed.
