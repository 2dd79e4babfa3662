(** * The source of a run

    Statements only; each proof is one lemma of the facts files. *)
From Coq Require Import String List NArith ZArith.
From Verif Require Import PyStr Ast Shell ShellSpec Pp RunCases SourceFacts.
Import ListNotations.
Open Scope N_scope.

(** ** C63: the source is kept *)
(** Whatever the preprocessor yields, whichever system call fails and whenever the process
    dies: the source is as it was, unless the source itself names another output, and that
    is the source, or the source is its backup or its browse file. *)
Theorem C63_source_is_kept_partial pp dir read now ro fn fates s res s' st :
  (forall t n, read s fn = Some t -> p_output (pp t fn (output_fn dir fn)) = Some n ->
     n = [] \/ fn <> n /\ fn <> n ++ lit ".bak" /\ fn <> n ++ lit ".json") ->
  pp_file pp dir read now ro fn fates s = Some (res, s', st) -> s' fn = s fn.
Proof. exact (source_kept pp dir read now ro fn fates s res s' st). Qed.
Print Assumptions C63_source_is_kept_partial.
Example C63_case : exists res s', pp_file run_of [] contents_of 5 true (lit "a.yu-c") [] (one_file plain_source) = Some (res, s', Completed) /\
  (forall t n, contents_of (one_file plain_source) (lit "a.yu-c") = Some t -> p_output (run_of t (lit "a.yu-c") (output_fn [] (lit "a.yu-c"))) = Some n ->
    n = [] \/ lit "a.yu-c" <> n /\ lit "a.yu-c" <> n ++ lit ".bak" /\ lit "a.yu-c" <> n ++ lit ".json") /\
  holds s' (lit "a.c") (lit "y") /\ holds s' (lit "a.yu-c") plain_source.
Proof. exact plain_kept. Qed.

(** A source that sets the name of the output to its own is replaced by what it yields. *)
Theorem C63_source_is_kept_refuted : exists res s', pp_file run_of [] contents_of 5 false (lit "a.yu-c") [] (one_file self_source) = Some (res, s', Completed) /\
  holds (one_file self_source) (lit "a.yu-c") self_source /\ holds s' (lit "a.yu-c") (lit "x") /\ holds s' (lit "a.yu-c.bak") self_source.
Proof. exact self_overwritten. Qed.
Print Assumptions C63_source_is_kept_refuted.
