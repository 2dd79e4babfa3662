(** * Codec and traceback

    Statements only; each proof is one lemma of the facts files. *)
From Coq Require Import List NArith ZArith.
From Verif Require Import PyStr Ast Codec CodecSpec CodecFacts EnvSpec CodecCases LexSpec CodecCases2.
Import ListNotations.
Open Scope N_scope.

(** ** C40: names of the codec *)
Theorem C40_plain_name : forall known s, plain_name s -> yupp_search known s = Ok (Some utf_8).
Proof. exact search_plain. Qed.
Print Assumptions C40_plain_name.

Theorem C40_other_names_declined : forall known s,
  ~ plain_name s -> ~ dotted_name known s -> yupp_search known s = Ok None.
Proof. exact search_other. Qed.
Print Assumptions C40_other_names_declined.

(** The documented form with an encoding never gives a codec: it raises. *)
Theorem C40_dotted_name_refuted : forall known s, dotted_name known s ->
  exists msg, yupp_search known s = Err (Exn AttributeError msg).
Proof. exact search_dotted. Qed.
Print Assumptions C40_dotted_name_refuted.

Example C40_case : plain_name (lit "YuPp") /\ dotted_name (fun _ => true) (lit "yupp.latin-1") /\
  ~ plain_name (lit "yuppie") /\ ~ dotted_name (fun _ => false) (lit "yupp.xx").
Proof. exact codec_case. Qed.

(** ** C41: incremental decoding *)
Theorem C41_chunks_do_not_matter : forall decode chunks, concat chunks <> [] ->
  inc_feed decode [] chunks = fst (decode (concat chunks)).
Proof. exact feed_all. Qed.
Print Assumptions C41_chunks_do_not_matter.

(** Nothing at all is never passed to the preprocessor, whatever one-shot decoding gives. *)
Theorem C41_empty_input : forall decode chunks, concat chunks = [] -> inc_feed decode [] chunks = [].
Proof. exact feed_empty. Qed.
Print Assumptions C41_empty_input.

Theorem C41_empty_input_refuted : exists decode : list N -> text * nat,
  inc_feed decode [] [[]] <> fst (decode []).
Proof. exact feed_empty_differs. Qed.
Print Assumptions C41_empty_input_refuted.

Example C41_case : inc_feed (fun l => (l ++ [33], length l)) [] [[97]; []; [98; 99]; []] = [97; 98; 99; 33].
Proof. exact feed_case. Qed.

(** ** C42: line numbers in tracebacks *)
Theorem C42_substituted_file : forall files fn fn_o shrink n, gives files fn (fn_o, shrink) ->
  shown files fn n = (fn_o, Z.max 1 (n - Z.of_nat shrink + 1)).
Proof. exact shown_subst. Qed.
Print Assumptions C42_substituted_file.

Theorem C42_registered : forall realpath fn fn_o shrink files,
  gives (substitution realpath fn fn_o shrink files) (realpath fn) (realpath fn_o, shrink).
Proof. exact subst_gives. Qed.
Print Assumptions C42_registered.

(** Frames of other files are shown one line too low. *)
Theorem C42_other_files_refuted : forall files fn n, ~ In fn (names files) -> (1 <= n)%Z ->
  shown files fn n = (fn, (n + 1)%Z).
Proof. exact shown_other. Qed.
Print Assumptions C42_other_files_refuted.

Example C42_case :
  let files := substitution (fun x => x) (lit "m.yu") (lit "m") 2 [] in
  gives files (lit "m.yu") (lit "m", 2%nat) /\ ~ In (lit "o.py") (names files) /\
  shown files (lit "m.yu") 7 = (lit "m", 6%Z) /\ shown files (lit "o.py") 7 = (lit "o.py", 8%Z).
Proof. exact traceback_case. Qed.

(** ** C62: the interpreter gets the preprocessed file *)
(** If the interpreter passes what follows the declaration, the text that is preprocessed is the
    file as it is, and the result is handed over if it is Python; tracebacks then name the output. *)
Theorem C62_file_is_preprocessed base syntax realpath fn process c r input bytes code fn_o shrink files :
  declared c r -> base input = (r, bytes) -> process c = Some (true, code, fn_o, shrink) ->
  exists files', decode base syntax realpath (Some c) fn process input files = (if syntax code then code else [], bytes, files') /\
    dict_get (realpath fn) files' = Some (realpath fn_o, shrink).
Proof. exact (decode_file base syntax realpath fn process c r input bytes code fn_o shrink files). Qed.
Print Assumptions C62_file_is_preprocessed.
(** If it cannot be preprocessed, nothing is handed over and tracebacks are left alone. *)
Theorem C62_nothing_on_failure base syntax realpath fn process c r input bytes files :
  declared c r -> base input = (r, bytes) -> (forall code fn_o shrink, process c <> Some (true, code, fn_o, shrink)) ->
  decode base syntax realpath (Some c) fn process input files = ([], bytes, files).
Proof. exact (decode_failed base syntax realpath fn process c r input bytes files). Qed.
Print Assumptions C62_nothing_on_failure.
Example C62_case : declared declared_file (lit "x").
Proof. exact declared_case'. Qed.
(** A declaration with an equals sign, which Python accepts as well: the second line is processed twice. *)
Theorem C62_equals_sign_refuted : exists l r, begins_with_line equals_file l r /\ occurs (lit "coding=yupp") l /\
  stream_text (Some equals_file) r = lit "# coding=yupp" ++ 10 :: lit "n += 1" ++ 10 :: lit "n += 1" ++ [10].
Proof. exact equals_refuted. Qed.
Print Assumptions C62_equals_sign_refuted.
Theorem C62_second_line_doubled_refuted c l1 r1 l2 r2 : begins_with_line c l1 r1 -> ~ occurs (lit "coding:") l1 -> begins_with_line r1 l2 r2 ->
  stream_text (Some c) r1 = l1 ++ l2 ++ l2 ++ r2.
Proof. exact (doubled_line c l1 r1 l2 r2). Qed.
Print Assumptions C62_second_line_doubled_refuted.
