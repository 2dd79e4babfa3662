(** * Whole runs: C01, C43 *)
From Coq Require Import List NArith ZArith Bool String.
From Verif Require Import PyStr LexSpec Ast Lex Parse ParseSpec Final Shell PpSpec Pp HeaderFacts PpFacts3 PpCases ConfSpec ReadCases.
Import ListNotations.
Open Scope list_scope.
Open Scope N_scope.

(** ** C01: plain text passes through unchanged *)
(** The tree of a plain text is that text cut into pieces: nothing is lost, added or moved. *)
Theorem C01_tree_spells_the_text cx d key s decl t l s' :
  plain_text t -> c_python cx = false \/ key <> c_main cx \/ no_magic is_word t ->
  dict_get key (y_source s) = Some (decl, t) -> yuparse cx (S d) key s = Ok (l, s') -> s' = s /\ spells l t.
Proof. exact (tree_spells cx d key s decl t l s'). Qed.
Print Assumptions C01_tree_spells_the_text.
(** There is one, for C texts, unless a comment that is to be skipped is not closed. *)
Theorem C01_tree_exists cx d key s decl t :
  plain_text t -> c_python cx = false -> c_skip cx <> SkipC \/ ~ occurs (lit "/*") t ->
  dict_get key (y_source s) = Some (decl, t) -> exists l, yuparse cx (S d) key s = Ok (l, s) /\ spells l t.
Proof. exact (tree_exists cx d key s decl t). Qed.
Print Assumptions C01_tree_exists.

(** The result of the run is the text, its line ends unified. *)
Theorem C01_plain_text_passes w cfg d n t input output pr :
  plain_text t -> language_of output false -> k_skip cfg = 0%Z -> k_browse cfg = false -> k_reduce cfg = false ->
  ~ In 254 t -> ~ In 255 t ->
  exists t', unified t t' /\ pp w cfg (S d) (S (S (S n))) t input output pr = Ok (PP true t' None None false 0).
Proof. exact (read_plain_run w cfg d n t input output pr). Qed.
Print Assumptions C01_plain_text_passes.
Example C01_case : plain_text c_source /\ language_of (Some (lit "a.c")) false /\ ~ In 254 c_source /\ ~ In 255 c_source /\
  pp world0 (config0 0 false false) 1 4 c_source (Some (lit "a.yu-c")) (Some (lit "a.c")) process0 =
    Ok (PP true (lit "int x[] = { '\'', ""a(b"" };" ++ [10; 9] ++ lit "f(x); // (done" ++ [10] ++ lit "/* it's") None None false 0).
Proof. exact read_plain_case. Qed.

(** With any other setting of the clean-up and of comment skipping, the run
    yields the cleaned text or fails because of a comment; it never alters the text. *)
Theorem C01_never_altered w cfg d n t input output pr :
  plain_text t -> language_of output false -> k_browse cfg = false ->
  exists t', unified t t' /\
    (pp w cfg (S d) (S (S (S n))) t input output pr =
       Ok (PP true (replace_steady (reduce_emptiness (k_reduce cfg) t')) None None false 0)
     \/ (comments_of false (k_skip cfg) SkipC /\ occurs (lit "/*") t /\
         pp w cfg (S d) (S (S (S n))) t input output pr = Ok (PP false [] None None false 0))).
Proof. exact (read_never_altered w cfg d n t input output pr). Qed.
Print Assumptions C01_never_altered.
Example C01_skip_case : plain_text c_source /\ comments_of false (k_skip (config0 1 false false)) SkipC /\
  pp world0 (config0 1 false false) 1 4 c_source (Some (lit "a.yu-c")) (Some (lit "a.c")) process0 =
    Ok (PP false [] None None false 0).
Proof. exact read_skip_case. Qed.

(** In browse mode the text is the same. *)
Theorem C01_with_browsing w cfg d n t input output pr key :
  source_named input key ->
  plain_text t -> language_of output false -> k_skip cfg = 0%Z -> k_browse cfg = true -> k_reduce cfg = false ->
  ~ In 254 t -> ~ In 255 t -> all_digits key = false ->
  exists t' j, unified t t' /\ pp w cfg (S d) (S (S (S n))) t input output pr = Ok (PP true t' (Some j) None false 0).
Proof. exact (read_plain_run_browse w cfg d n t input output pr key). Qed.
Print Assumptions C01_with_browsing.
Example C01_browse_case : source_named (Some (lit "a.yu-c")) (lit "a.yu-c") /\ all_digits (lit "a.yu-c") = false /\
  pp world0 (config0 0 false true) 1 4 c_source (Some (lit "a.yu-c")) (Some (lit "a.c")) process0 =
    Ok (PP true (lit "int x[] = { '\'', ""a(b"" };" ++ [10; 9] ++ lit "f(x); // (done" ++ [10] ++ lit "/* it's") (Some (lit "{}")) None false 0).
Proof. exact (conj c_input browse_case). Qed.

(** ** C43: the magic comment is removed and nothing else *)
(** The tree is that of what follows the magic comment, behind the part of the
    header that is kept; positions count from the beginning of the text. *)
Theorem C43_tree_behind_the_header cx d s decl t kept rest n :
  c_python cx = true -> header is_word t kept rest n -> rest <> [] ->
  dict_get (c_main cx) (y_source s) = Some (decl, t) ->
  exists hd, spells hd kept /\
    yuparse cx (S d) (c_main cx) s =
    bind (text_tree cx d (Src rest (Some (c_main cx)) (Z.of_nat (List.length t - List.length rest))))
         (fun l => ret (match l with [] => [] | _ => hd ++ l end)) (set_shrink n s).
Proof. exact (parse_with_header cx d s decl t kept rest n). Qed.
Print Assumptions C43_tree_behind_the_header.

(** A run on a text with a header yields what is kept of the header and the rest. *)
Theorem C43_magic_comment_removed w cfg d n t input output pr :
  language_of output true -> k_browse cfg = false -> k_reduce cfg = false -> k_skip cfg = 0%Z -> ~ In 254 t -> ~ In 255 t ->
  exists t', unified t t' /\ forall kept rest ln, header is_word t' kept rest ln -> rest <> [] -> plain_text rest ->
    ~ In 34 rest -> ~ In 39 rest ->
    pp w cfg (S d) (S (S (S n))) t input output pr = Ok (PP true (kept ++ rest) None None false ln).
Proof. exact (read_header_run w cfg d n t input output pr). Qed.
Print Assumptions C43_magic_comment_removed.
Example C43_case : header is_word py_source (lit "#!/usr/bin/python" ++ [10] ++ lit "# -*- coding: utf-8 -*-") ([10] ++ lit "x = [1]" ++ [10]) 2 /\
  plain_text ([10] ++ lit "x = [1]" ++ [10]) /\ language_of py_out true /\
  pp world0 (config0 0 false false) 1 4 py_source py_in py_out process0 =
    Ok (PP true (lit "#!/usr/bin/python" ++ [10] ++ lit "# -*- coding: utf-8 -*-" ++ [10] ++ lit "x = [1]" ++ [10]) None None false 2).
Proof. exact read_header_case. Qed.

(** Without a magic comment nothing is removed. *)
Theorem C43_left_alone w cfg d n t input output pr :
  plain_text t -> k_browse cfg = false -> k_reduce cfg = false -> k_skip cfg = 0%Z ->
  ~ In 254 t -> ~ In 255 t -> ~ In 34 t -> ~ In 39 t ->
  exists t', unified t t' /\
    (no_magic is_word t' -> pp w cfg (S d) (S (S (S n))) t input output pr = Ok (PP true t' None None false 0)).
Proof. exact (left_alone w cfg d n t input output pr). Qed.
Print Assumptions C43_left_alone.
Example C43_left_alone_case : plain_text (lit "# coding: utf-8" ++ [10] ++ lit "# yupp") /\
  no_magic is_word (lit "# coding: utf-8" ++ [10] ++ lit "# yupp").
Proof. exact alone_case. Qed.

(** With any other settings, and with quotes in the text, it is cleaned as usual or the run fails. *)
Theorem C43_never_altered w cfg d n t input output pr :
  plain_text t -> k_browse cfg = false ->
  exists t', unified t t' /\ (no_magic is_word t' ->
    (pp w cfg (S d) (S (S (S n))) t input output pr =
       Ok (PP true (replace_steady (reduce_emptiness (k_reduce cfg) t')) None None false 0)
     \/ ((In 34 t \/ In 39 t \/ occurs (lit "/*") t) /\
         pp w cfg (S d) (S (S (S n))) t input output pr = Ok (PP false [] None None false 0)))).
Proof. exact (python_never_altered w cfg d n t input output pr). Qed.
Print Assumptions C43_never_altered.

(** A source of nothing but a magic comment is not preprocessed at all. *)
Theorem C43_only_header_refuted w cfg d n t input output pr kept ln :
  language_of output true -> header is_word (unify_eol t) kept [] ln ->
  pp w cfg (S d) n t input output pr = Ok (PP false [] None None false 0).
Proof. exact (read_run_only_header w cfg d n t input output pr kept ln). Qed.
Print Assumptions C43_only_header_refuted.
Example C43_only_header_case : header is_word (unify_eol (lit "# coding: yupp")) [] [] 1.
Proof. exact only_header_case. Qed.

(** A capital letter in yupp garbles the comment: the output is longer than the source. *)
Theorem C43_case_refuted : exists body rest,
  magic is_word (with_encoding is_word) (35 :: body) /\ comment_line (35 :: body) rest /\ rest <> [] /\ plain_text rest /\
  exists out, pp world0 (config0 0 false false) 1 4 (35 :: body ++ rest) py_in py_out process0 =
    Ok (PP true out None None false 1) /\ (List.length (35%N :: body ++ rest) < List.length out)%nat.
Proof. exact case_refuted. Qed.
Print Assumptions C43_case_refuted.

(** An empty line before the comment is removed as well. *)
Theorem C43_empty_line_refuted : exists a c rest kept, kept_of is_word c kept /\ comment_line c rest /\ plain_text rest /\
  rest <> [] /\ Forall line_end a /\
  pp world0 (config0 0 false false) 1 4 (a ++ c ++ rest) py_in py_out process0 =
    Ok (PP true (kept ++ rest) None None false 2) /\ a ++ kept ++ rest <> kept ++ rest.
Proof. exact blank_line_refuted. Qed.
Print Assumptions C43_empty_line_refuted.
