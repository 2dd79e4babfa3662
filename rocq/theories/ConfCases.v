(** Runs with the settings of their file names (proofs only). *)
From Coq Require Import List NArith ZArith Bool String Lia ZifyBool ZifyNat ZifyN.
From Verif Require Import PyStr PyStrFacts LexSpec Ast Lex Parse ParseSpec PpSpec Shell ShellSpec Pp PpCases ProtectSpec ProtectFacts ProtectCases ConfSpec ConfFacts.
Import ListNotations.
Open Scope list_scope.
Open Scope N_scope.

Lemma every_path p : (exists n, file_of p n) /\ (exists d, directory_of p d).
Proof. split; [apply file_of_total|apply directory_of_total]. Qed.
Lemma comments_run w cfg d n t input p f python m pr :
  k_browse cfg = false -> k_reduce cfg = false -> ~ In 254 t -> ~ In 255 t ->
  file_of p f -> (python = true <-> python_file f) -> comments_of python (k_skip cfg) m ->
  exists t', unified t t' /\
    ((python = true -> no_magic is_word t') -> protected python m [] t' ->
     pp w cfg (S d) (S (S (S n))) t input (Some p) pr = Ok (PP true t' None None false 0)).
Proof.
  intros B R N1 N2 F L C. pose proof (language w cfg input p f F) as L'.
  assert (E : is_python (Some p) = python).
  { change (c_python (run_ctx w cfg input (Some p))) with (is_python (Some p)) in L'. destruct python, (is_python (Some p)); try reflexivity; [apply L', L; reflexivity|symmetry; apply L, L'; reflexivity]. }
  assert (M : skip_of cfg (is_python (Some p)) = m) by (apply (comments w cfg input (Some p)); change (c_python _) with (is_python (Some p)); rewrite E; exact C).
  pose proof (protected_run w cfg d n t input (Some p) pr B R N1 N2) as H. rewrite E in *. rewrite M in *. exact H.
Qed.
Lemma not_slash (t : text) : has_char 47 t = false -> ~ In 47 t.
Proof. apply has_char_false. Qed.
Lemma conf_case : file_of (lit "src//a.PY") (lit "a.PY") /\ directory_of (lit "src//a.PY") (lit "src") /\ python_file (lit "a.PY") /\
  ~ python_file (lit ".py") /\ comments_of false 3 SkipC.
Proof.
  split; [apply (FN_in (lit "src/") (lit "a.PY")), not_slash; reflexivity|]. split; [apply (DN_dir (lit "sr") 99 1 (lit "a.PY")); [discriminate|apply not_slash; reflexivity]|].
  split; [apply (PF_py (lit "a") 80 89); [left; discriminate|auto|auto]|]. split; [|constructor].
  intros P. apply (python_file_spec (lit ".py")) in P; [discriminate P|apply not_slash; reflexivity].
Qed.
Lemma comments_run_case : file_of (lit "out/a.c") (lit "a.c") /\ (false = true <-> python_file (lit "a.c")) /\ comments_of false (k_skip (config0 3 false false)) SkipC /\
  protected false SkipC [] guarded_source.
Proof.
  split; [apply (FN_in (lit "out") (lit "a.c")), not_slash; reflexivity|]. split; [|split; [constructor|exact guarded_case]].
  split; [discriminate|]. intros P. apply (python_file_spec (lit "a.c")) in P; [discriminate P|apply not_slash; reflexivity].
Qed.
