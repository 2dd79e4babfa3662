(** More recursion budget never changes a result (proofs only). *)
From Coq Require Import List NArith ZArith Bool String Lia.
From Verif Require Import PyStr Ast Lex Parse Final Eval.
Import ListNotations.
Open Scope list_scope.

Definition le_E {A} (m1 m2 : E A) : Prop := forall e s, m1 e s = Fuel \/ m2 e s = m1 e s.
Lemma le_refl {A} (m : E A) : le_E m m.
Proof. intros e s. right. reflexivity. Qed.
Lemma le_bind {A B} (m1 m2 : E A) (k1 k2 : A -> E B) :
  le_E m1 m2 -> (forall a, le_E (k1 a) (k2 a)) -> le_E (ebind m1 k1) (ebind m2 k2).
Proof.
  intros Hm Hk e s. unfold ebind. destruct (Hm e s) as [->| ->]; [left; reflexivity|].
  destruct (m1 e s) as [[[a e'] s']| |]; [apply Hk|right; reflexivity|left; reflexivity].
Qed.
Lemma le_in_frame {A} f (m1 m2 : E A) : le_E m1 m2 -> le_E (in_frame f m1) (in_frame f m2).
Proof. intros H e s. unfold in_frame. destruct (H (f :: e) s) as [->| ->]; auto. Qed.

(** one item of a text block *)
Definition t_after (self : node -> E node) (ind x_indent : indent) (x_apply : bool) (t rest : list node)
  (v : node) : E (list node) :=
  match v with
  | NNone => t_loop self false ind O t rest
  | NSkip => t_loop self false ind 1 t rest
  | NImportBegin | NImportEnd => t_loop self false ind O t rest
  | NEnv f =>
      match rest with
      | [] => ebind (ewarn "useless assign"%string) (fun _ => eret t)
      | _ => ebind (self (NSetClosure (NT (mark_next ind rest) ind) f)) (fun v => eret (t ++ [v]))
      end
  | NEmbed (NT l _) =>
      ebind (self (NT ((match ind with
                        | IndStr (c :: i) => map (add_indent (c :: i)) l
                        | _ => l
                        end) ++ rest) ind)) (fun tail =>
      eret (match list_of tail with
            | Some l => t ++ l
            | None => t ++ [tail]
            end))
  | NEmbed w | w => t_loop self false x_indent O
                      (t ++ [if x_apply then NTrim w (ind_text ind) else w]) rest
  end.
Definition is_apply (x : node) : bool := match x with NApply _ _ _ _ _ => true | _ => false end.
Definition indent_after (ind : indent) (x : node) : indent :=
  match x with
  | NPlain _ IndNone _ => ind
  | NPlain _ i _ => i
  | _ => IndFalse
  end.
Lemma t_loop_comment self mark ind t rest :
  t_loop self mark ind O t (NComment :: rest) =
  t_loop self (is_ind_str ind && match rest with y :: _ => is_plain y | [] => false end) ind O t rest.
Proof. destruct mark; reflexivity. Qed.
Lemma t_loop_item self mark ind t x rest : is_comment x = false ->
  t_loop self mark ind O t (x :: rest) =
  ebind (self (if mark then set_trim x else x))
        (t_after self ind (indent_after ind (if mark then set_trim x else x)) (is_apply x) t rest).
Proof.
  intros H. cbn [t_loop].
  assert (H' : is_comment (if mark then set_trim x else x) = false)
    by (destruct mark; [destruct x; exact H|exact H]).
  assert (Ha : is_apply x = is_apply (if mark then set_trim x else x))
    by (destruct mark; [destruct x; reflexivity|reflexivity]).
  rewrite Ha, H'. reflexivity.
Qed.
Lemma t_loop_skip self mark ind k t x rest :
  t_loop self mark ind (S k) t (x :: rest) =
  t_loop self false ind (match x with NImportBegin => S (S k) | NImportEnd => k | _ => S k end) t rest.
Proof. destruct x; reflexivity. Qed.

Section Mono.
Variables (ec : ectx) (self1 self2 : node -> E node).
Hypothesis Hs : forall x, le_E (self1 x) (self2 x).

Ltac step :=
  match goal with
  | |- le_E (self1 _) (self2 _) => apply Hs
  | |- le_E (ebind _ _) (ebind _ _) => apply le_bind; [|intros ?]
  | |- le_E (in_frame _ _) (in_frame _ _) => apply le_in_frame
  | |- le_E (match ?x with _ => _ end) _ => destruct x
  | |- _ => first [apply le_refl | solve [auto]]
  end.
Ltac mono := repeat step.

Lemma t_loop_mono items : forall mark ind skip t,
  le_E (t_loop self1 mark ind skip t items) (t_loop self2 mark ind skip t items).
Proof.
  induction items as [|x items IH]; intros mark ind skip t; [apply le_refl|].
  destruct skip as [|k]; [|rewrite !t_loop_skip; apply IH].
  destruct (is_comment x) eqn:Ec.
  - destruct x; try discriminate Ec. rewrite !t_loop_comment. apply IH.
  - rewrite !t_loop_item by exact Ec. apply le_bind; [apply Hs|]. intros v. unfold t_after.
    destruct v; try apply IH; [destruct v; try apply IH; mono|mono].
Qed.
Lemma list_loop_mono l : forall acc, le_E (list_loop self1 acc l) (list_loop self2 acc l).
Proof. induction l as [|x l IH]; intros acc; cbn [list_loop]; mono. Qed.
Lemma eval_list_mono l : le_E (eval_list self1 l) (eval_list self2 l).
Proof. unfold eval_list. mono. Qed.
Lemma list_eval_1_mono l : le_E (list_eval_1 self1 l) (list_eval_1 self2 l).
Proof. induction l as [|x l IH]; cbn [list_eval_1]; mono. Qed.
Lemma eval_local_mono f : le_E (eval_local self1 f) (eval_local self2 f).
Proof. induction f as [|[k v] f IH]; cbn [eval_local]; mono. Qed.
Lemma eval_named_mono l : le_E (eval_named self1 l) (eval_named self2 l).
Proof. induction l as [|[k v] f IH]; cbn [eval_named]; mono. Qed.
Lemma chain_mono l : forall x, le_E (chain self1 l x) (chain self2 l x).
Proof. induction l as [|k l IH]; intros x; cbn [chain]; mono. Qed.
Lemma foreach_mono args l : le_E (foreach self1 args l) (foreach self2 args l).
Proof. induction l as [|x l IH]; cbn [foreach]; mono. apply chain_mono. Qed.
Lemma bind_param_mono c var v args named file pos :
  le_E (bind_param self1 c var v args named file pos) (bind_param self2 c var v args named file pos).
Proof. unfold bind_param. mono. Qed.
Lemma apply_closure_mono c args named file pos :
  le_E (apply_closure self1 c args named file pos) (apply_closure self2 c args named file pos).
Proof. unfold apply_closure. mono; try apply bind_param_mono. apply list_eval_1_mono. Qed.
Lemma eval_apply_mono fn args named file pos :
  le_E (eval_apply ec self1 fn args named file pos) (eval_apply ec self2 fn args named file pos).
Proof.
  unfold eval_apply, apply_str, named_unexpected. mono; try apply eval_list_mono; try apply apply_closure_mono;
    try apply eval_named_mono; apply foreach_mono.
Qed.
Lemma lambda_loop_mono b : forall late dflt f, le_E (lambda_loop self1 b late dflt f) (lambda_loop self2 b late dflt f).
Proof. induction b as [|[[lt v] d] b IH]; intros late dflt f; cbn [lambda_loop]; mono. Qed.
Lemma eval_lambda_mono b f : le_E (eval_lambda self1 b f) (eval_lambda self2 b f).
Proof. unfold eval_lambda. mono. apply lambda_loop_mono. Qed.
Lemma eval_binding_mono lv a : le_E (eval_binding self1 lv a) (eval_binding self2 lv a).
Proof. unfold eval_binding. mono. Qed.
Lemma eval_body_mono parse x : le_E (eval_body ec self1 parse x) (eval_body ec self2 parse x).
Proof.
  destruct x; cbn [eval_body]; unfold eval_T, eval_var, eval_set, eval_emit, eval_eval; mono;
    try apply t_loop_mono; try apply eval_apply_mono; try apply eval_lambda_mono; try apply eval_binding_mono;
    try apply eval_local_mono; try apply list_loop_mono.
Qed.
End Mono.

Lemma yueval_step ec parse n : forall x, le_E (yueval ec parse n x) (yueval ec parse (S n) x).
Proof.
  induction n as [|n IH]; intros x; [intros e s; left; reflexivity|].
  cbn [yueval]. apply eval_body_mono. exact IH.
Qed.
Lemma yueval_mono ec parse n m x e s : (n <= m)%nat ->
  yueval ec parse n x e s <> Fuel -> yueval ec parse m x e s = yueval ec parse n x e s.
Proof.
  intros Hle. induction Hle as [|m Hle IH]; intros Hf; [reflexivity|].
  destruct (yueval_step ec parse m x e s) as [H|H].
  - rewrite <- IH in Hf by exact Hf. contradiction.
  - rewrite H. apply IH, Hf.
Qed.
