(** Evaluation keeps the names of all scopes (proofs only). *)
From Coq Require Import List NArith ZArith Bool Lia.
From Verif Require Import PyStr Ast Lex Parse Final Eval EnvSpec EnvFacts EvalSpec EvalMono.
Import ListNotations.

Definition keeps {A} (m : E A) : Prop :=
  forall e s a e' s', m e s = Ok (a, e', s') -> scopes e' = scopes e.
Lemma keeps_ret {A} (a : A) : keeps (eret a).
Proof. intros e s a' e' s' H. injection H as <- <- <-. reflexivity. Qed.
Lemma keeps_throw {A} c m : keeps (@ethrow A c m).
Proof. intros e s a' e' s' H. discriminate H. Qed.
Lemma keeps_lift {A} (m : M A) : keeps (lift_m m).
Proof.
  intros e s a' e' s' H. unfold lift_m in H.
  destruct (m s) as [[? ?]| |]; try discriminate H. injection H as <- <- <-. reflexivity.
Qed.
Lemma keeps_env : keeps get_env.
Proof. intros e s a' e' s' H. injection H as <- <- <-. reflexivity. Qed.
Lemma keeps_bind {A B} (m : E A) (k : A -> E B) : keeps m -> (forall a, keeps (k a)) -> keeps (ebind m k).
Proof.
  intros Hm Hk e s b e' s' H. unfold ebind in H.
  destruct (m e s) as [[[a e1] s1]| |] eqn:E1; try discriminate H.
  rewrite (Hk _ _ _ _ _ _ H). apply (Hm _ _ _ _ _ E1).
Qed.
Lemma keeps_in_frame {A} f (m : E A) : keeps m -> keeps (in_frame f m).
Proof.
  intros Hm e s a e' s' H. unfold in_frame in H.
  destruct (m (f :: e) s) as [[[b [|f' e1]] s1]| |] eqn:E1; try discriminate H.
  injection H as <- <- <-. apply Hm in E1. unfold scopes in E1. cbn [map] in E1. injection E1 as _ E1. exact E1.
Qed.
Lemma names_dict_set (k : text) (v : node) (f : frame) : dict_mem k f = true -> names (dict_set k v f) = names f.
Proof.
  induction f as [|[k' v'] f IH]; unfold dict_mem; cbn [dict_get dict_set]; [discriminate|].
  destruct (teqb k k'); [reflexivity|]. intros H. cbn [names map fst]. f_equal. apply IH, H.
Qed.
Lemma scopes_update k v e : scopes (update_variable k v e) = scopes e.
Proof.
  induction e as [|f e IH]; cbn [update_variable]; [reflexivity|].
  destruct (dict_mem k f) eqn:Em; unfold scopes in *; cbn [map]; [|f_equal; exact IH].
  f_equal. apply names_dict_set, Em.
Qed.
Lemma keeps_update k v : keeps (mod_env (update_variable k v)).
Proof. intros e s a e' s' H. injection H as <- <- <-. apply scopes_update. Qed.

Section Keep.
Variables (ec : ectx) (self : node -> E node).
Hypothesis Hs : forall x, keeps (self x).

Ltac step :=
  match goal with
  | |- keeps (self _) => apply Hs
  | |- keeps (ebind _ _) => apply keeps_bind; [|intros ?]
  | |- keeps (in_frame _ _) => apply keeps_in_frame
  | |- keeps (eret _) => apply keeps_ret
  | |- keeps (ethrow _ _) => apply keeps_throw
  | |- keeps (lift_m _) => apply keeps_lift
  | |- keeps (ewarn _) => apply keeps_lift
  | |- keeps (lift_r _) => apply keeps_lift
  | |- keeps get_env => apply keeps_env
  | |- keeps (mod_env (update_variable _ _)) => apply keeps_update
  | |- keeps (match ?x with _ => _ end) => destruct x
  end.
Ltac keep := repeat step.

Lemma t_loop_keeps items : forall mark ind skip t, keeps (t_loop self mark ind skip t items).
Proof.
  induction items as [|x items IH]; intros mark ind skip t; [apply keeps_ret|].
  destruct skip as [|k]; [|rewrite !t_loop_skip; apply IH].
  destruct (is_comment x) eqn:Ec.
  - destruct x; try discriminate Ec. rewrite !t_loop_comment. apply IH.
  - rewrite !t_loop_item by exact Ec. apply keeps_bind; [apply Hs|]. intros v. unfold t_after.
    destruct v; try apply IH; [destruct v; try apply IH; keep|keep].
Qed.
Lemma list_loop_keeps l : forall acc, keeps (list_loop self acc l).
Proof. induction l as [|x l IH]; intros acc; cbn [list_loop]; keep; apply IH. Qed.
Lemma eval_list_keeps l : keeps (eval_list self l).
Proof. unfold eval_list. keep. Qed.
Lemma list_eval_1_keeps l : keeps (list_eval_1 self l).
Proof. induction l as [|x l IH]; cbn [list_eval_1]; keep; apply IH. Qed.
Lemma eval_local_keeps f : keeps (eval_local self f).
Proof. induction f as [|[k v] f IH]; cbn [eval_local]; keep; apply IH. Qed.
Lemma eval_named_keeps l : keeps (eval_named self l).
Proof. induction l as [|[k v] f IH]; cbn [eval_named]; keep; apply IH. Qed.
Lemma chain_keeps l : forall x, keeps (chain self l x).
Proof. induction l as [|k l IH]; intros x; cbn [chain]; keep; apply IH. Qed.
Lemma foreach_keeps args l : keeps (foreach self args l).
Proof. induction l as [|x l IH]; cbn [foreach]; keep; [apply chain_keeps|apply IH]. Qed.
Lemma bind_param_keeps c var v args named file pos : keeps (bind_param self c var v args named file pos).
Proof. unfold bind_param. keep. Qed.
Lemma apply_closure_keeps c args named file pos : keeps (apply_closure self c args named file pos).
Proof. unfold apply_closure. keep; try apply bind_param_keeps. apply list_eval_1_keeps. Qed.
Lemma subscript_keeps l z : keeps (subscript l z).
Proof. unfold subscript. keep. Qed.
Lemma apply_number_keeps fn z args file pos : keeps (apply_number fn z args file pos).
Proof. unfold apply_number. keep; apply subscript_keeps. Qed.
Lemma apply_builtin_keeps a args file pos : keeps (apply_builtin ec a args file pos).
Proof. unfold apply_builtin, find_builtin, apply_function. keep. Qed.
Lemma apply_special_keeps a args file pos : keeps (apply_special ec a args file pos).
Proof. unfold apply_special, find_builtin. keep. Qed.
Lemma named_unexpected_keeps {A} named (k : E A) : keeps k -> keeps (named_unexpected named k).
Proof. intros H. unfold named_unexpected. keep. exact H. Qed.
Lemma apply_str_keeps fn s args named file pos : keeps (apply_str ec self fn s args named file pos).
Proof. unfold apply_str. keep; apply eval_named_keeps. Qed.
Lemma eval_apply_keeps fn args named file pos : keeps (eval_apply ec self fn args named file pos).
Proof.
  unfold eval_apply. apply keeps_bind; [apply Hs|intros f]. apply keeps_bind; [apply eval_list_keeps|intros args'].
  destruct (as_closure _ f); [apply apply_closure_keeps|].
  destruct f; cbn [str_of]; try (apply apply_str_keeps); try apply named_unexpected_keeps;
    try apply apply_builtin_keeps; try apply apply_special_keeps; try apply apply_number_keeps; keep; try apply foreach_keeps.
Qed.
Lemma lambda_loop_keeps b : forall late dflt f, keeps (lambda_loop self b late dflt f).
Proof. induction b as [|[[lt v] d] b IH]; intros late dflt f; cbn [lambda_loop]; keep; apply IH. Qed.
Lemma eval_lambda_keeps b f : keeps (eval_lambda self b f).
Proof. unfold eval_lambda. keep. apply lambda_loop_keeps. Qed.
Lemma assign_list_keeps vars : forall vals f, keeps (assign_list vars vals f).
Proof. induction vars as [|v vars IH]; intros vals f; cbn [assign_list]; keep; apply IH. Qed.
Lemma eval_binding_keeps lv a : keeps (eval_binding self lv a).
Proof. unfold eval_binding. keep. apply assign_list_keeps. Qed.
Lemma eval_body_keeps parse x : keeps (eval_body ec self parse x).
Proof.
  destruct x; cbn [eval_body]; unfold eval_T, eval_var, find_builtin, eval_set, eval_emit, eval_eval; keep;
    try apply t_loop_keeps; try apply eval_apply_keeps; try apply eval_lambda_keeps; try apply eval_binding_keeps;
    try apply eval_local_keeps; try apply list_loop_keeps.
Qed.
End Keep.

Lemma yueval_keeps ec parse n : forall x, keeps (yueval ec parse n x).
Proof.
  induction n as [|n IH]; intros x; [intros e s a e' s' H; discriminate H|].
  cbn [yueval]. apply eval_body_keeps. exact IH.
Qed.
