(** Runs with and without browse information: concrete cases. *)
From Coq Require Import List NArith ZArith Bool String.
From Verif Require Import PyStr Ast Lex Parse Final Eval Builtin Builtin2 Shell Pp PpCases FlatSpec FlatParse FlatFacts FlatEval FlatBuiltin FlatRun.
Import ListNotations.
Open Scope list_scope.
Open Scope N_scope.

(** a world with the built-in functions modelled in Builtin2 *)
Definition world2 : world :=
  World (w_read world0) (w_unq world0) (w_pyimport world0) (w_evalimport world0) (w_str world0) (w_scripts world0)
        (more_builtins (run_ctx world0 (config0 0 false false) None None) None (fun _ => None))
        (w_names world0) (w_infix world0) (w_float_str world0) (w_float_int world0) (w_repr world0) (w_lib world0) (w_json world0).
Lemma world2_blind : blind_world world2.
Proof.
  constructor.
  - intros i n. exact Logic.I.
  - apply more_blind. intros n. exact Logic.I.
  - intros e f f' _. constructor.
  - intros x x' _. reflexivity.
Qed.
Definition config2 : config := Config 0 false false false [] [] 0.
Definition source2 : text :=
  lit "($set f \x.[<($x)>])($macro m (p) ($upper [($p)]))" ++ 10 :: lit "a ($f 3)($m b)($f [($f [b])])".
Lemma case2 : blind_world world2 /\ k_trim config2 = false /\ k_reduce config2 = false /\
  exists r, pp world2 (with_browse true config2) 60 60 source2 None None process0 = Ok r /\ p_ok r = true /\
    p_plain r = 10 :: lit "a <3> B<<b>>" /\ p_json r <> None.
Proof.
  split; [exact world2_blind|]. split; [reflexivity|]. split; [reflexivity|].
  eexists. split; [vm_compute; reflexivity|]. split; [reflexivity|]. split; [reflexivity|]. discriminate.
Qed.

(** [repr] as Python's, as far as lists of texts without quotes go: a text is put
    in quotes, and a finished text with tables shows as a call of its class
    (yugen.py 376, 2914-2915). *)
Fixpoint repr_py (x : node) : text :=
  match x with
  | NRaw t => [39] ++ t ++ [39]
  | NResult t _ _ => lit "RESULT('" ++ t ++ lit "', [...])"
  | NList l => lit "LIST([" ++ join (lit ", ") (map repr_py l) ++ lit "])"
  | _ => []
  end.
Definition world3 : world :=
  World (w_read world0) (w_unq world0) (w_pyimport world0) (w_evalimport world0) (w_str world0) (w_scripts world0)
        (w_rest world2)
        (w_names world0) (w_infix world0) (w_float_str world0) (w_float_int world0) repr_py (w_lib world0) (w_json world0).
Lemma repr_shows_tables :
  ~ (forall w cfg d n t input output pr r, k_trim cfg = false -> k_reduce cfg = false ->
       pp w (with_browse true cfg) d n t input output pr = Ok r -> p_ok r = true ->
       exists r', pp w (with_browse false cfg) d n t input output pr = Ok r' /\ p_plain r' = p_plain r).
Proof.
  intros H.
  destruct (H world3 config2 60%nat 60%nat (lit "($repr [x])") None None process0 _ eq_refl eq_refl ltac:(vm_compute; reflexivity) eq_refl) as (r' & E & P).
  vm_compute in E. inversion E as [E1]. rewrite <- E1 in P. vm_compute in P. discriminate.
Qed.
Lemma functions_case : (exists f, dict_get (lit "len") core = Some f) /\
  (forall cx, exists g, dict_get (lit "strlen") (more cx None) = Some g).
Proof. split; [eexists; vm_compute; reflexivity|]. intros cx. eexists. reflexivity. Qed.
