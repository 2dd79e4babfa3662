(** * Browse information and whole runs: C30 *)
From Coq Require Import List NArith ZArith Bool String.
From Verif Require Import PyStr Ast Eval Builtin Builtin2 Shell Pp PpCases FlatSpec FlatBuiltin FlatRun FlatCases.
Import ListNotations.
Open Scope list_scope.
Open Scope N_scope.

(** ** C30: browse information does not change the generated text
    Indentation and reduction switched off (with them on see Properties_Trim.v): any
    source whose run succeeds with browse information succeeds without, with the
    same text, output name, repetition and shrinking. *)
Theorem C30_whole_run_partial w cfg d n t input output pr r :
  blind_world w -> k_trim cfg = false -> k_reduce cfg = false ->
  pp w (with_browse true cfg) d n t input output pr = Ok r -> p_ok r = true ->
  exists r', pp w (with_browse false cfg) d n t input output pr = Ok r' /\ p_ok r' = true /\ p_plain r' = p_plain r /\
             p_output r' = p_output r /\ p_repeat r' = p_repeat r /\ p_shrink r' = p_shrink r.
Proof. exact (browse_same_run w cfg d n t input output pr r). Qed.
Print Assumptions C30_whole_run_partial.
Example C30_whole_run_case : blind_world world2 /\ k_trim config2 = false /\ k_reduce config2 = false /\
  exists r, pp world2 (with_browse true config2) 60 60 source2 None None process0 = Ok r /\ p_ok r = true /\
    p_plain r = 10 :: lit "a <3> B<<b>>" /\ p_json r <> None.
Proof. exact case2. Qed.

(** the built-in functions do not look at the browse information of their arguments *)
Theorem C30_builtin_functions_blind name f : dict_get name core = Some f -> blind f.
Proof. exact (fun H => even_blind f (core_even name f H)). Qed.
Print Assumptions C30_builtin_functions_blind.
Theorem C30_more_functions_blind cx input name f : dict_get name (more cx input) = Some f -> blind f.
Proof. exact (fun H => even_blind f (more_even cx input name f H)). Qed.
Print Assumptions C30_more_functions_blind.
Example C30_functions_case : (exists f, dict_get (lit "len") core = Some f) /\
  (forall cx, exists g, dict_get (lit "strlen") (more cx None) = Some g).
Proof. exact functions_case. Qed.

(** [repr] of a finished text shows its browse information: the generated text
    then depends on the option. *)
Theorem C30_repr_refuted :
  ~ (forall w cfg d n t input output pr r, k_trim cfg = false -> k_reduce cfg = false ->
       pp w (with_browse true cfg) d n t input output pr = Ok r -> p_ok r = true ->
       exists r', pp w (with_browse false cfg) d n t input output pr = Ok r' /\ p_plain r' = p_plain r).
Proof. exact repr_shows_tables. Qed.
Print Assumptions C30_repr_refuted.
