(** Runs with and without browse information (proofs only). *)
From Coq Require Import List NArith ZArith Bool String.
From Verif Require Import PyStr Ast Lex Parse Final Eval Builtin Builtin2 Shell Pp FlatSpec FlatParse FlatFacts FlatEval FlatBuiltin.
Import ListNotations.
Open Scope list_scope.

Lemma builtin_blind defs scripts main rest :
  (forall i n, blind_entry (scripts i n)) -> (forall n, blind_entry (rest n)) ->
  forall i n, blind_entry (builtin_with defs scripts main rest i n).
Proof.
  intros Hs Hr i n. unfold builtin_with. pose proof (Hs i n) as H. destruct (scripts i n); [exact H|].
  destruct (dict_get n defs); [exact Logic.I|]. destruct (teqb n (lit "__FILE__")).
  - apply even_blind. intros args. destruct args; [apply msim_ret; reflexivity|apply msim_throw].
  - destruct (dict_get n core) as [f|] eqn:E; [apply even_blind, (core_even n), E|apply Hr].
Qed.
Lemma more_blind cx input other : (forall n, blind_entry (other n)) -> forall n, blind_entry (more_builtins cx input other n).
Proof.
  intros Ho n. unfold more_builtins. destruct (dict_get n (more cx input)) as [f|] eqn:E; [apply even_blind, (more_even cx input n), E|apply Ho].
Qed.

Lemma run_sim w cfg d n input output pr : blind_world w -> k_trim cfg = false ->
  forall x, sim (run_ectx w cfg input output pr) flat (yueval (run_ectx w cfg input output pr) (yuparse (run_ctx w cfg input output) d) n x)
    (yueval (flat_ec (run_ectx w cfg input output pr)) (flat_parse (yuparse (run_ctx w cfg input output) d)) n (flat x)).
Proof.
  intros Hw Ht x. apply s_yueval.
  - intros y. cbn [run_ectx e_repr]. symmetry. apply (bw_repr w Hw). apply same_flat.
  - intros t f. cbn [run_ectx e_infix]. apply (bw_infix w Hw). unfold same_frame. symmetry. apply flat_frame_flat.
  - intros i nm. cbn [run_ectx e_builtin]. apply builtin_blind; [apply (bw_scripts w Hw)|apply (bw_rest w Hw)].
  - exact Ht.
  - intros key. apply n_yuparse.
Qed.
Lemma output_text_of x o : output_of x = Some o -> str_of x = Some (output_text o).
Proof.
  destruct x; cbn [output_of str_of option_map]; intros E; inversion E; reflexivity.
Qed.
Lemma output_of_str x t : str_of x = Some t -> exists o, output_of x = Some o /\ output_text o = t.
Proof.
  destruct x; cbn [output_of str_of option_map]; intros E; inversion E; eexists; split; reflexivity.
Qed.
Lemma final_off cfg o : k_reduce cfg = false -> output_text (final cfg o) = replace_steady (output_text o).
Proof. intros H. destruct o; cbn [final output_text]; unfold reduce_emptiness, reduce_emptiness_browse, replace_steady_browse; rewrite H; reflexivity. Qed.

Theorem browse_same_run w cfg d n t input output pr r :
  blind_world w -> k_trim cfg = false -> k_reduce cfg = false ->
  pp w (with_browse true cfg) d n t input output pr = Ok r -> p_ok r = true ->
  exists r', pp w (with_browse false cfg) d n t input output pr = Ok r' /\ p_ok r' = true /\ p_plain r' = p_plain r /\
             p_output r' = p_output r /\ p_repeat r' = p_repeat r /\ p_shrink r' = p_shrink r.
Proof.
  intros Hw Ht Hr E Hok. unfold pp in *.
  set (c1 := with_browse true cfg) in *. set (c0 := with_browse false cfg) in *.
  change (run_ctx w c0 input output) with (run_ctx w c1 input output).
  set (st := run_start t input output pr) in *.
  destruct (yuparse (run_ctx w c1 input output) d (input_key input) st) as [[l s]| |]; try discriminate E;
    [|inversion E; subst r; discriminate Hok].
  pose proof (run_sim w c1 d n input output pr Hw Ht (NText l 0 0) [] s) as S1.
  pose proof (run_sim w c0 d n input output pr Hw Ht (NText l 0 0) [] s) as S0.
  change (run_ctx w c0 input output) with (run_ctx w c1 input output) in S0.
  change (flat_ec (run_ectx w c0 input output pr)) with (flat_ec (run_ectx w c1 input output pr)) in S0.
  destruct (yueval (run_ectx w c1 input output pr) (yuparse (run_ctx w c1 input output) d) n (NText l 0 0) [] s)
    as [[[x e1] s1]| |]; try discriminate E; [|inversion E; subst r; discriminate Hok].
  destruct (yueval (run_ectx w c0 input output pr) (yuparse (run_ctx w c1 input output) d) n (NText l 0 0) [] s)
    as [[[x0 e0] s0]| |].
  2:{ specialize (S0 eq_refl). congruence. }
  2:{ specialize (S0 eq_refl). congruence. }
  rewrite S1 in S0. clear S1.
  assert (Ex : flat x = flat x0) by congruence. assert (Es : flat_st s1 = flat_st s0) by congruence. clear S0.
  destruct (output_of x) as [o|] eqn:Eo; [|inversion E; subst r; discriminate Hok].
  apply output_text_of in Eo.
  assert (Eo' : str_of x0 = Some (output_text o)) by (rewrite <- Eo, <- (str_flat x0), <- Ex; apply str_flat).
  destruct (output_of_str x0 _ Eo') as (o0 & E0 & Et0). rewrite E0. inversion E; subst r. clear E.
  eexists. split; [reflexivity|]. cbn [p_ok p_plain p_output p_repeat p_shrink].
  rewrite !final_off by exact Hr. rewrite Et0.
  split; [reflexivity|]. split; [reflexivity|].
  split; [|split].
  - pose proof (f_equal y_fb_output Es) as H. symmetry. exact H.
  - pose proof (f_equal y_fb_repeat Es) as H. symmetry. exact H.
  - pose proof (f_equal y_shrink Es) as H. symmetry. exact H.
Qed.
