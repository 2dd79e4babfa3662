(** * Runs on Python sources *)
From Coq Require Import List NArith ZArith Bool Lia ZifyBool ZifyNat ZifyN.
From Verif Require Import PyStr PyStrFacts Ast Lex LexSpec LexFacts LexFacts2 Parse ParseSpec ParseFacts ParseFacts3 Final FinalFacts Eval Builtin Loc Shell EnvSpec EnvFacts CodecFacts PpSpec Pp PpFacts PpFacts2 HeaderFacts.
Import ListNotations.
Open Scope N_scope.

Lemma run_header w cfg d n t input output pr kept rest ln : is_python output = true -> k_browse cfg = false ->
  header is_word (unify_eol t) kept rest ln -> rest <> [] -> plain_text rest ->
  pp w cfg (S d) (S (S (S n))) t input output pr =
    Ok (PP true (replace_steady (reduce_emptiness (k_reduce cfg) (kept ++ rest))) None None false ln) \/
  may_fail (run_ctx w cfg input output) rest /\ pp w cfg (S d) (S (S (S n))) t input output pr = Ok (failed []).
Proof.
  intros Py B H R T. unfold pp. set (cx := run_ctx w cfg input output) in *. set (s0 := run_start t input output pr).
  assert (D : exists dl, dict_get (c_main cx) (y_source s0) = Some (dl, unify_eol t)).
  { eexists. unfold s0, run_start. cbn [y_source]. rewrite dict_get_set'. cbn [cx run_ctx c_main]. rewrite teqb_refl. reflexivity. }
  destruct D as [dl D].
  pose proof (parse_header_text cx d s0 dl (unify_eol t) kept rest ln Py H R T D) as K.
  change (c_main cx) with (input_key input) in K.
  destruct (yuparse cx (S d) (input_key input) s0) as [[l s']|e|].
  - left. destruct K as [-> S]. rewrite (eval_pieces (run_ectx w cfg input output pr) _ n l (kept ++ rest) _ _ _ _ B S). reflexivity.
  - right. split; [exact K|reflexivity].
  - contradiction.
Qed.
Lemma run_only_header w cfg d n t input output pr kept ln : is_python output = true ->
  header is_word (unify_eol t) kept [] ln -> pp w cfg (S d) n t input output pr = Ok (failed []).
Proof.
  intros Py H. unfold pp. set (cx := run_ctx w cfg input output) in *. set (s0 := run_start t input output pr).
  assert (D : exists dl, dict_get (c_main cx) (y_source s0) = Some (dl, unify_eol t)).
  { eexists. unfold s0, run_start. cbn [y_source]. rewrite dict_get_set'. cbn [cx run_ctx c_main]. rewrite teqb_refl. reflexivity. }
  destruct D as [dl D].
  destruct (parse_only_header cx d s0 dl (unify_eol t) kept ln Py H D) as [e E].
  change (c_main cx) with (input_key input) in E. rewrite E. reflexivity.
Qed.
Lemma no_magic_no_header w cfg input output t : no_magic is_word (unify_eol t) ->
  no_header (run_ctx w cfg input output) (input_key input) (unify_eol t).
Proof. intros H. right. right. intros s. apply no_magic_header, H. Qed.
