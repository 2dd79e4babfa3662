(** Without [($emit ..)] no value of an outer name changes (proofs only). *)
From Coq Require Import List NArith ZArith Bool Lia.
From Verif Require Import PyStr Ast Lex Parse Final Eval PyStrFacts EnvSpec EnvFacts EvalSpec EvalMono.
Import ListNotations.

Lemma frame_agrees_refl allow f : frame_agrees allow f f.
Proof. induction f as [|x f IH]; constructor; auto. Qed.
Lemma env_agrees_refl allow e : env_agrees allow e e.
Proof. induction e as [|x f IH]; constructor; auto using frame_agrees_refl. Qed.
Lemma frame_agrees_trans allow f1 : forall f2 f3, frame_agrees allow f1 f2 -> frame_agrees allow f2 f3 -> frame_agrees allow f1 f3.
Proof.
  induction f1 as [|x f1 IH]; intros f2 f3 H1 H2; inversion H1 as [|x1 y1 l1 l2 A1 B1]; subst;
    inversion H2 as [|x2 y2 l3 l4 A2 B2]; subst; constructor.
  - destruct A1 as [Hk Hv], A2 as [Hk' Hv']. split; [congruence|]. rewrite Hk in *.
    destruct Hv as [Hv|Hv]; [auto|]. destruct Hv' as [Hv'|Hv']; [auto|]. right. congruence.
  - eapply IH; eassumption.
Qed.
Lemma env_agrees_trans allow e1 : forall e2 e3, env_agrees allow e1 e2 -> env_agrees allow e2 e3 -> env_agrees allow e1 e3.
Proof.
  induction e1 as [|x e1 IH]; intros e2 e3 H1 H2; inversion H1; subst; inversion H2; subst; constructor.
  - eapply frame_agrees_trans; eassumption.
  - eapply IH; eassumption.
Qed.
Section Allow.
Variable allow : text -> bool.

Definition still {A} (Q : A -> Prop) (m : E A) : Prop :=
  forall e s a e' s', emits_only_env allow e = true -> m e s = Ok (a, e', s') ->
    env_agrees allow e e' /\ emits_only_env allow e' = true /\ Q a.
Lemma still_ret {A} (Q : A -> Prop) (a : A) : Q a -> still Q (eret a).
Proof. intros Hq e s a' e' s' He H. injection H as <- <- <-. auto using env_agrees_refl. Qed.
Lemma still_throw {A} (Q : A -> Prop) c m : still Q (@ethrow A c m).
Proof. intros e s a' e' s' He H. discriminate H. Qed.
Lemma still_lift {A} (Q : A -> Prop) (m : M A) :
  (forall s a s', m s = Ok (a, s') -> Q a) -> still Q (lift_m m).
Proof.
  intros Hm e s a' e' s' He H. unfold lift_m in H.
  destruct (m s) as [[? ?]| |] eqn:Em; try discriminate H. injection H as <- <- <-.
  split; [apply env_agrees_refl|]. split; eauto.
Qed.
Lemma still_env : still (fun e => emits_only_env allow e = true) get_env.
Proof. intros e s a' e' s' He H. injection H as <- <- <-. auto using env_agrees_refl. Qed.
Lemma still_bind {A B} (P : A -> Prop) (Q : B -> Prop) (m : E A) (k : A -> E B) :
  still P m -> (forall a, P a -> still Q (k a)) -> still Q (ebind m k).
Proof.
  intros Hm Hk e s b e' s' He H. unfold ebind in H.
  destruct (m e s) as [[[a e1] s1]| |] eqn:E1; try discriminate H.
  destruct (Hm _ _ _ _ _ He E1) as (H1 & He1 & Ha). destruct (Hk a Ha _ _ _ _ _ He1 H) as (H2 & He2 & Hb).
  eauto using env_agrees_trans.
Qed.
Lemma still_in_frame {A} (Q : A -> Prop) f (m : E A) : emits_only_frame allow f = true -> still Q m ->
  still (fun r => Q (fst r) /\ emits_only_frame allow (snd r) = true) (in_frame f m).
Proof.
  intros Hf Hm e s a e' s' He H. unfold in_frame in H.
  destruct (m (f :: e) s) as [[[b [|f' e1]] s1]| |] eqn:E1; try discriminate H.
  injection H as <- <- <-. apply Hm in E1; [|unfold emits_only_env in *; cbn [forallb]; rewrite Hf, He; reflexivity].
  destruct E1 as (E1 & E2 & Hq). inversion E1; subst. unfold emits_only_env in E2. cbn [forallb] in E2.
  apply andb_true_iff in E2 as [E2 E3]. auto.
Qed.
Lemma still_weaken {A} (P Q : A -> Prop) m : (forall a, P a -> Q a) -> still P m -> still Q m.
Proof. intros H Hm e s a e' s' He Hr. destruct (Hm _ _ _ _ _ He Hr) as (? & ? & ?). auto. Qed.

Definition ok (x : node) : Prop := emits_only allow x = true.
Definition okl (l : list node) : Prop := forallb (emits_only allow) l = true.
Definition okf (f : frame) : Prop := emits_only_frame allow f = true.
Definition oknamed (f : list (source * node)) : Prop := forallb (fun e => match e with (_, b) => emits_only allow b end) f = true.

Lemma okl_app a b : okl (a ++ b) <-> okl a /\ okl b.
Proof. unfold okl. rewrite forallb_app, andb_true_iff. tauto. Qed.
Lemma okl_cons x l : okl (x :: l) <-> ok x /\ okl l.
Proof. unfold okl, ok. cbn [forallb]. rewrite andb_true_iff. tauto. Qed.
Lemma okl_nil : okl [].
Proof. reflexivity. Qed.
Lemma okf_app a b : okf (a ++ b) <-> okf a /\ okf b.
Proof. unfold okf, emits_only_frame. rewrite forallb_app, andb_true_iff. tauto. Qed.
Lemma okf_cons k v l : okf ((k, v) :: l) <-> ok v /\ okf l.
Proof. unfold okf, emits_only_frame, ok. cbn [forallb]. rewrite andb_true_iff. tauto. Qed.
Lemma okf_nil : okf [].
Proof. reflexivity. Qed.
Lemma okf_filter p f : okf f -> okf (filter p f).
Proof.
  induction f as [|[k v] f IH]; intros H; [exact H|]. apply okf_cons in H. cbn [filter].
  destruct (p (k, v)); [apply okf_cons|]; tauto.
Qed.
Lemma okf_set k v f : ok v -> okf f -> okf (frame_set k v f).
Proof.
  intros Hv Hf. unfold frame_set, frame_del. apply okf_app. split; [apply okf_filter, Hf|].
  apply okf_cons. split; [exact Hv|apply okf_nil].
Qed.
Lemma okf_get k f v : okf f -> dict_get k f = Some v -> ok v.
Proof.
  induction f as [|[k' v'] f IH]; cbn [dict_get]; [discriminate|]. intros H. apply okf_cons in H.
  destruct (teqb k k'); [intros [= <-]; tauto|tauto].
Qed.
Lemma okf_dict_set k v f : ok v -> okf f -> okf (dict_set k v f).
Proof.
  intros Hv. induction f as [|[k' v'] f IH]; intros H; cbn [dict_set]; [apply okf_cons; auto|].
  apply okf_cons in H. destruct (teqb k k'); apply okf_cons; tauto.
Qed.
Lemma ok_lookup k e v : emits_only_env allow e = true -> lookup e k = Some v -> ok v.
Proof.
  induction e as [|f e IH]; cbn [lookup]; [discriminate|]. unfold emits_only_env. cbn [forallb].
  intros H. apply andb_true_iff in H as [Hf He]. destruct (dict_get k f) eqn:Ed; [|apply IH, He].
  intros [= <-]. apply (okf_get k f); assumption.
Qed.
Lemma okf_fold {A} (g : A -> text) l : forall f, okf f ->
  okf (fold_left (fun f x => frame_set (g x) NBound f) l f).
Proof. induction l as [|x l IH]; intros f Hf; cbn [fold_left]; [exact Hf|]. apply IH, okf_set; [reflexivity|exact Hf]. Qed.
Lemma okf_fold_v {A} (g : A -> text) v l : ok v -> forall f, okf f ->
  okf (fold_left (fun f x => frame_set (g x) v f) l f).
Proof. intros Hv. induction l as [|x l IH]; intros f Hf; cbn [fold_left]; [exact Hf|]. apply IH, okf_set; [exact Hv|exact Hf]. Qed.
Lemma ok_set_trim x : ok x -> ok (set_trim x).
Proof. destruct x; intros H; exact H. Qed.
Lemma okl_mark ind l : okl l -> okl (mark_next ind l).
Proof.
  destruct l as [|y l]; intros H; [exact H|]. cbn [mark_next].
  destruct (is_ind_str ind && is_plain y); [|exact H]. apply okl_cons in H. apply okl_cons.
  split; [apply ok_set_trim|]; tauto.
Qed.
Lemma ok_add_indent i x : ok x -> ok (add_indent i x).
Proof. destruct x; intros H; try exact H. cbn [add_indent]. match goal with |- ok (match ?j with _ => _ end) => destruct j end; exact H. Qed.
Lemma okl_add_indent i l : okl l -> okl (map (add_indent i) l).
Proof.
  induction l as [|x l IH]; intros H; [exact H|]. apply okl_cons in H. cbn [map]. apply okl_cons.
  split; [apply ok_add_indent|apply IH]; tauto.
Qed.
Lemma ok_list_of v l : ok v -> list_of v = Some l -> okl l.
Proof. destruct v; cbn [list_of]; try discriminate; intros H [= <-]; exact H. Qed.
Lemma okl_lazy l : okl l -> okl (map NLazy l).
Proof.
  induction l as [|x l IH]; intros H; [exact H|]. apply okl_cons in H. cbn [map]. apply okl_cons.
  split; [exact (proj1 H)|apply IH; tauto].
Qed.
Lemma okl_nth l : okl l -> forall n v, nth_error l n = Some v -> ok v.
Proof.
  induction l as [|x l IH]; intros H [|n] v; cbn [nth_error]; try discriminate; apply okl_cons in H.
  - intros [= <-]. tauto.
  - apply IH. tauto.
Qed.
Lemma ok_builtin_result v : ok v -> ok (builtin_result v).
Proof. destruct v; intros H; exact H. Qed.
Lemma ok_const_result v : ok v -> ok (const_result v).
Proof. destruct v; intros H; exact H. Qed.
Lemma okl_py_iter x l : ok x -> py_iter x = Some l -> okl l.
Proof.
  intros Hx. unfold py_iter. destruct (list_of x) eqn:El; [intros [= <-]; exact (ok_list_of _ _ Hx El)|].
  destruct (str_of x) as [t|]; [|discriminate]. cbn [option_map]. intros [= <-].
  induction t as [|c t IH]; [reflexivity|]. cbn [map]. apply okl_cons. split; [reflexivity|exact IH].
Qed.
Lemma okf_infix e names : okf (infix_frame e names).
Proof.
  unfold infix_frame. assert (H : okf []) by reflexivity. revert H. generalize (@nil (text * node)).
  induction names as [|n ns IH]; intros f Hf; cbn [fold_left]; [exact Hf|]. apply IH.
  destruct (lookup e n); [apply okf_set; [reflexivity|exact Hf]|exact Hf].
Qed.
Lemma ok_list_to_bound l b : list_to_bound l = Some b -> forallb (fun e => match e with (_, d) => emits_only allow d end) b = true.
Proof.
  revert b. induction l as [|x l IH]; intros b; cbn [list_to_bound]; [intros [= <-]; reflexivity|].
  destruct x; try discriminate. destruct (list_to_bound l) as [b'|]; [|discriminate]. cbn [option_map].
  intros [= <-]. cbn [forallb]. apply IH. reflexivity.
Qed.

Section Pure.
Variables (ec : ectx) (self : node -> E node) (parse : text -> M (list node)).
Hypothesis Hctx : emits_only_ctx allow ec parse.
Hypothesis Hs : forall x, ok x -> still ok (self x).

Lemma t_loop_still items : forall mark ind skip t, okl items -> okl t ->
  still okl (t_loop self mark ind skip t items).
Proof.
  induction items as [|x items IH]; intros mark ind skip t Hi Ht; [apply still_ret, Ht|].
  apply okl_cons in Hi as [Hx Hi].
  destruct skip as [|k]; [|rewrite !t_loop_skip; apply IH; assumption].
  destruct (is_comment x) eqn:Ec.
  - destruct x; try discriminate Ec. rewrite !t_loop_comment. apply IH; assumption.
  - rewrite !t_loop_item by exact Ec.
    apply still_bind with (P := ok).
    { apply Hs. destruct mark; [apply ok_set_trim|]; exact Hx. }
    intros v Hv.
    assert (Hpush : forall i w, ok w -> still okl (t_loop self false i 0
      (t ++ [if is_apply x then NTrim w (ind_text ind) else w]) items)).
    { intros i w Hw. apply IH; [exact Hi|]. apply okl_app. split; [exact Ht|]. apply okl_cons.
      split; [destruct (is_apply x); exact Hw|apply okl_nil]. }
    unfold t_after.
    destruct v; try (apply Hpush; exact Hv); try (apply IH; assumption).
    + destruct v; try (apply Hpush; exact Hv).
      apply still_bind with (P := ok).
      * apply Hs. change (okl ((match ind with
                        | IndStr (c :: i0) => map (add_indent (c :: i0)) l
                        | _ => l
                        end) ++ items)). apply okl_app. split; [|exact Hi].
        destruct ind as [|[|c ii]|]; try exact Hv. apply okl_add_indent, Hv.
      * intros tail Htl. apply still_ret. destruct (list_of tail) eqn:El; apply okl_app.
        { split; [exact Ht|exact (ok_list_of _ _ Htl El)]. }
        { split; [exact Ht|]. apply okl_cons. split; [exact Htl|apply okl_nil]. }
    + destruct items as [|y items].
      * apply still_bind with (P := fun _ => True); [apply still_lift; auto|]. intros _ _. apply still_ret, Ht.
      * apply still_bind with (P := ok).
        { apply Hs. unfold ok. cbn [emits_only]. apply andb_true_iff. split; [apply okl_mark, Hi|exact Hv]. }
        intros w Hw. apply still_ret, okl_app. split; [exact Ht|]. apply okl_cons. split; [exact Hw|apply okl_nil].
Qed.
Lemma eval_T_still l i : okl l -> still ok (eval_T ec self l i).
Proof.
  intros Hl. unfold eval_T. apply still_bind with (P := okl); [apply t_loop_still; [exact Hl|reflexivity]|].
  intros t Ht. destruct (is_term (NT t i)); [|apply still_ret, Ht].
  destruct (e_browse ec); [|apply still_ret; reflexivity].
  apply still_bind with (P := fun _ => True); [apply still_lift; auto|]. intros r _. apply still_ret. reflexivity.
Qed.
Lemma list_loop_still l : forall acc, okl l -> okl acc -> still okl (list_loop self acc l).
Proof.
  induction l as [|x l IH]; intros acc Hl Ha; cbn [list_loop]; [apply still_ret, Ha|].
  apply okl_cons in Hl as [Hx Hl]. apply still_bind with (P := ok); [apply Hs, Hx|]. intros v Hv.
  apply still_bind with (P := fun _ => True).
  { destruct v; try (apply still_ret; exact I); apply still_lift; auto. }
  intros _ _.
  assert (Hp : forall w, ok w -> still okl (list_loop self (acc ++ [w]) l)).
  { intros w Hw. apply IH; [exact Hl|]. apply okl_app. split; [exact Ha|]. apply okl_cons. split; [exact Hw|apply okl_nil]. }
  destruct v; try (apply Hp; exact Hv); try (apply IH; assumption).
  destruct v; try (apply Hp; exact Hv); apply IH; try assumption; apply okl_app; split; assumption.
Qed.
Lemma eval_list_still l : okl l -> still okl (eval_list self l).
Proof.
  intros Hl. unfold eval_list. apply still_bind with (P := ok); [apply Hs, Hl|]. intros v Hv.
  destruct (list_of v) eqn:El; [apply still_ret, (ok_list_of _ _ Hv El)|apply still_throw].
Qed.
Lemma list_eval_1_still l : okl l ->
  still (fun r => match fst r with Some v => ok v | None => True end /\ okl (snd r)) (list_eval_1 self l).
Proof.
  induction l as [|x l IH]; intros Hl; cbn [list_eval_1]; [apply still_ret; split; reflexivity|].
  apply okl_cons in Hl as [Hx Hl]. apply still_bind with (P := ok); [apply Hs, Hx|]. intros v Hv.
  assert (Hll : okl (x :: l)) by (apply okl_cons; auto).
  destruct v; try (apply still_ret; split; [exact Hv|exact Hl]).
  destruct v; try (apply still_ret; split; [exact Hv|exact Hl]);
    try (apply still_ret; split; [exact I|exact Hll]).
  - destruct l0 as [|y l0]; [apply IH, Hl|]. apply still_ret. change (okl (y :: l0)) in Hv. apply okl_cons in Hv.
    split; [exact (proj1 Hv)|]. cbn [snd]. apply okl_app. tauto.
  - destruct l0 as [|y l0]; [apply IH, Hl|]. apply still_ret. change (okl (y :: l0)) in Hv. apply okl_cons in Hv.
    split; [exact (proj1 Hv)|]. cbn [snd]. apply okl_app. tauto.
Qed.
Lemma eval_local_still f : okf f -> still (fun r => okf (fst r)) (eval_local self f).
Proof.
  induction f as [|[k v] f IH]; intros Hf; cbn [eval_local]; [apply still_ret; reflexivity|].
  apply okf_cons in Hf as [Hv Hf]. apply still_bind with (P := ok); [apply Hs, Hv|]. intros v' Hv'.
  eapply still_bind; [apply IH, Hf|]. intros [f'' b] Hf''. apply still_ret. cbn [fst]. apply okf_cons. auto.
Qed.
Lemma eval_named_still l : oknamed l -> still oknamed (eval_named self l).
Proof.
  induction l as [|[k v] f IH]; intros Hf; cbn [eval_named]; [apply still_ret; reflexivity|].
  unfold oknamed in *. cbn [forallb] in Hf. apply andb_true_iff in Hf as [Hv Hf].
  apply still_bind with (P := ok); [apply Hs, Hv|]. intros v' Hv'.
  eapply still_bind; [apply IH, Hf|]. intros l Hl. apply still_ret. cbn [forallb]. rewrite Hl, Hv'. reflexivity.
Qed.
Lemma chain_still l : forall x, okl l -> ok x -> still ok (chain self l x).
Proof.
  induction l as [|k l IH]; intros x Hl Hx; cbn [chain]; [apply still_ret, Hx|].
  apply okl_cons in Hl as [Hk Hl]. apply still_bind with (P := ok); [|intros y Hy; apply IH; assumption].
  apply Hs. unfold ok in *. cbn [emits_only forallb]. rewrite Hk, Hx. reflexivity.
Qed.
Lemma foreach_still args l : okl args -> okl l -> still okl (foreach self args l).
Proof.
  intros Hargs. induction l as [|x l IH]; intros Hl; cbn [foreach]; [apply still_ret; reflexivity|].
  apply okl_cons in Hl as [Hx Hl]. apply still_bind with (P := ok); [apply chain_still; assumption|].
  intros y Hy. eapply still_bind; [apply IH, Hl|]. intros r Hr. apply still_ret.
  destruct y; try (apply okl_cons; split; assumption). exact Hr.
Qed.

Definition okc (c : closure) : Prop :=
  okf (cl_env c) /\ okf (cl_dflt c) /\ forall f, okf f -> ok (cl_node c f).
Lemma bind_param_still c var v args named file pos :
  okc c -> ok v -> okl args -> oknamed named -> still ok (bind_param self c var v args named file pos).
Proof.
  intros (Hce & Hcd & Hcn) Hv Ha Hn. unfold bind_param. apply still_bind with (P := ok).
  { destruct (dict_get var (cl_late c)) as [lt|]; [|apply still_ret, Hv].
    apply Hs. unfold ok. cbn [emits_only]. rewrite Hv. rewrite andb_true_r. cbn [andb].
    apply (okf_fold (fun k : text => k) lt []). reflexivity. }
  intros v' Hv'. cbv zeta.
  assert (He : okf (frame_set var v' (cl_env c))) by (apply okf_set; assumption).
  destruct (match named, args with [], [] => _ | _, _ => _ end).
  - apply Hs, Hcn, He.
  - apply Hs. unfold ok. cbn [emits_only]. rewrite (Hcn _ He). cbn [andb]. apply andb_true_iff. split; assumption.
Qed.
Lemma apply_closure_still c args named file pos :
  okc c -> okl args -> oknamed named -> still ok (apply_closure self c args named file pos).
Proof.
  intros Hc Ha Hn. pose proof Hc as (Hce & Hcd & Hcn). unfold apply_closure.
  destruct named as [|[var val] named].
  - destruct args as [|a args].
    + destruct (unassigned (cl_env c)) as [var|]; [|apply Hs, Hcn, Hce].
      destruct (dict_get var (cl_dflt c)) as [d|] eqn:Ed; [|apply still_ret, Hcn, Hce].
      apply still_bind with (P := ok); [apply Hs, (okf_get _ _ _ Hcd Ed)|].
      intros v Hv. apply bind_param_still; try assumption; reflexivity.
    + destruct (unassigned (cl_env c)) as [var|].
      * destruct (teqb var va_args).
        { apply bind_param_still; try assumption; reflexivity. }
        eapply still_bind; [apply list_eval_1_still, Ha|]. intros [[v|] args'] [Hv Ha'].
        { apply bind_param_still; try assumption. }
        { apply still_ret. unfold ok. cbn [emits_only forallb]. cbn [snd] in Ha'. rewrite (Hcn _ Hce). unfold okl in Ha'. rewrite Ha'. reflexivity. }
      * apply still_bind with (P := fun _ => True); [apply still_lift; auto|]. intros _ _. apply Hs, Hcn, Hce.
  - destruct (dict_get (s_txt var) (cl_env c)) as [old|]; [|apply still_throw].
    apply still_bind with (P := fun _ => True).
    { destruct old; try (apply still_ret; exact I); apply still_lift; auto. }
    intros _ _. unfold oknamed in Hn. cbn [forallb] in Hn. apply andb_true_iff in Hn as [Hv Hn].
    apply still_bind with (P := ok); [apply Hs, Hv|]. intros v Hv'. apply bind_param_still; assumption.
Qed.
Lemma subscript_still l z : okl l -> still ok (subscript l z).
Proof.
  intros Hl. unfold subscript. cbv zeta.
  repeat match goal with |- still _ (if ?c then _ else _) => destruct c end; try apply still_throw; try (apply still_ret; reflexivity);
    (destruct (nth_error l _) eqn:En; [apply still_ret, (okl_nth _ Hl _ _ En)|apply still_throw]).
Qed.
Lemma apply_number_still fn z args file pos : ok fn -> okl args -> still ok (apply_number fn z args file pos).
Proof.
  intros Hf Ha. unfold apply_number. destruct args as [|a args]; [apply still_ret, Hf|].
  destruct (is_term _).
  - destruct args as [|b args]; [|apply subscript_still, Ha].
    destruct (list_of a) eqn:El; [|apply subscript_still, Ha]. apply subscript_still.
    apply okl_cons in Ha. apply (ok_list_of _ _ (proj1 Ha) El).
  - apply still_ret. unfold ok. cbn [emits_only]. unfold okl in Ha. rewrite Hf, Ha. reflexivity.
Qed.
Lemma find_builtin_still a :
  still (fun b => match b with
                  | Some (BConst v) => ok v
                  | Some (BFun f) => forall args s v s', okl args -> f args s = Ok (v, s') -> ok v
                  | None => True end) (find_builtin ec a).
Proof.
  unfold find_builtin. apply still_lift. intros s b s' H. unfold bind, get_st, ret in H. injection H as <- <-.
  destruct Hctx as (_ & Hcst & Hfun & _).
  destruct (e_builtin ec (y_script s) a) as [[v|f]|] eqn:Eb; [exact (Hcst _ _ _ Eb)| |exact I].
  intros args s1 v s1' Ha Hr. exact (Hfun _ _ _ _ _ _ _ Eb Ha Hr).
Qed.
Lemma apply_builtin_still a args file pos : okl args -> still ok (apply_builtin ec a args file pos).
Proof.
  intros Ha. unfold apply_builtin. eapply still_bind; [apply find_builtin_still|]. intros [[v|f]|] Hb.
  - destruct args; [apply still_ret, ok_const_result, Hb|apply still_throw].
  - unfold apply_function. destruct (is_term _).
    + apply still_bind with (P := ok); [apply still_lift; intros s v s' Hr; exact (Hb _ _ _ _ Ha Hr)|].
      intros v Hv. apply still_ret, ok_builtin_result, Hv.
    + destruct (detect_deadlock _); [apply still_throw|]. apply still_ret. unfold ok. cbn [emits_only forallb].
      unfold okl in Ha. rewrite Ha. reflexivity.
  - apply still_throw.
Qed.
Lemma ok_reduce f : (forall args s v s', okl args -> f args s = Ok (v, s') -> ok v) ->
  forall l acc s v s', okl l -> ok acc -> reduce_list f acc l s = Ok (v, s') -> ok v.
Proof.
  intros Hf. induction l as [|x l IH]; intros acc s v s' Hl Ha; cbn [reduce_list].
  - unfold ret. intros [= <- _]. exact Ha.
  - apply okl_cons in Hl as [Hx Hl]. unfold bind. destruct (f [acc; x] s) as [[w s1]| |] eqn:Ef; try discriminate.
    apply IH; [exact Hl|]. apply (Hf _ _ _ _) in Ef; [exact Ef|]. apply okl_cons. split; [exact Ha|]. apply okl_cons. split; [exact Hx|apply okl_nil].
Qed.
Lemma apply_special_still a args file pos : okl args -> still ok (apply_special ec a args file pos).
Proof.
  intros Ha. unfold apply_special.
  assert (Hirr : ok (NApply (NSpecial a) args [] file pos)).
  { unfold ok. cbn [emits_only forallb]. unfold okl in Ha. rewrite Ha. reflexivity. }
  assert (Hone : forall k : node -> E node, (forall x, ok x -> args = [x] -> still ok (k x)) ->
    still ok (match args with [x] => k x | _ => ethrow TypeError "yueval: only one argument expected"%string end)).
  { intros k Hk. destruct args as [|x [|y r]]; try apply still_throw. apply okl_cons in Ha. apply Hk; [tauto|reflexivity]. }
  cbv zeta.
  destruct (teqb (s_txt a) _).
  { apply Hone. intros x Hx _. destruct x; try (apply still_ret; exact Hx).
    - apply still_ret. apply okl_lazy, Hx.
    - apply still_ret. apply okl_lazy, Hx.
    - apply still_ret, Hirr. }
  destruct (teqb (s_txt a) _).
  { apply Hone. intros x Hx _. destruct x; try (apply still_ret; reflexivity). apply still_ret, Hirr. }
  destruct (teqb (s_txt a) _).
  { destruct args as [|h r]; [apply still_throw|]. apply okl_cons in Ha as [Hh Hr].
    destruct h; try (destruct r; [apply still_throw|]; destruct (is_term _); [apply still_throw|];
      destruct (detect_deadlock _); [apply still_throw|apply still_ret, Hirr]);
      [|destruct r; apply still_throw].
    assert (Hm : still ok (if is_term (NList r) then ebind (find_builtin ec (s_txt a0)) (fun b =>
       match b with Some (BFun f) => lift_m (py_reduce f r) | _ => ethrow TypeError "reduce: not callable"%string end)
       else ethrow TypeError "yueval: irreducible expression"%string)).
    { destruct (is_term _); [|apply still_throw]. eapply still_bind; [apply find_builtin_still|].
      intros [[v|f]|] Hb; try apply still_throw. apply still_lift. intros s v s' He. unfold py_reduce in He.
      destruct r as [|q r]; [discriminate He|]. apply okl_cons in Hr as [Hq Hr].
      destruct (py_iter q) as [l|] eqn:Ei.
      - pose proof (okl_py_iter _ _ Hq Ei) as Hl. destruct r as [|i r].
        + destruct l as [|x l]; [discriminate He|]. apply okl_cons in Hl. eapply ok_reduce; [exact Hb| | |exact He]; tauto.
        + apply okl_cons in Hr. destruct r; [|discriminate He]. eapply ok_reduce; [exact Hb| | |exact He]; tauto.
      - destruct r as [|i [|]]; discriminate He. }
    destruct r; exact Hm. }
  destruct (teqb (s_txt a) _).
  { apply Hone. intros x Hx _. apply still_ret. reflexivity. }
  destruct (teqb (s_txt a) _).
  { apply Hone. intros x Hx _. destruct (list_of x) as [l|] eqn:El; [|apply still_throw].
    apply still_bind with (P := fun _ => True); [apply still_lift; auto|]. intros _ _.
    match goal with |- still _ (if ?c then _ else _) => destruct c end; [|apply still_ret; reflexivity].
    destruct (nth_error l _) eqn:En; [apply still_ret, (okl_nth _ (ok_list_of _ _ Hx El) _ _ En)|apply still_throw]. }
  destruct args; [apply still_ret; reflexivity|apply still_throw].
Qed.
Lemma named_unexpected_still {A} (Q : A -> Prop) named (k : E A) : still Q k -> still Q (named_unexpected named k).
Proof. intros H. unfold named_unexpected. destruct named; [exact H|apply still_throw]. Qed.
Lemma apply_str_still fn s args named file pos :
  ok fn -> okl args -> oknamed named -> still ok (apply_str ec self fn s args named file pos).
Proof.
  intros Hf Ha Hn. unfold apply_str.
  assert (H : still ok (ebind (eval_named self named) (fun named0 =>
    if forallb (fun e => is_term (snd e)) named0 && is_term (NList args)
    then eret (NStr (raw (format_named ec named0 (format_args ec 0 args s)))) else eret (NApply fn args named0 file pos)))).
  { eapply still_bind; [apply eval_named_still, Hn|]. intros nm Hnm.
    destruct (_ && _); apply still_ret; [reflexivity|]. unfold ok. cbn [emits_only]. unfold okl in Ha.
    rewrite Hf, Ha. exact Hnm. }
  destruct named; [|exact H]. destruct args; [apply still_ret, Hf|exact H].
Qed.
Lemma okc_as call fn c : ok fn -> as_closure call fn = Some c -> okc c.
Proof.
  unfold ok. destruct fn; cbn [as_closure emits_only]; try discriminate; intros H [= <-].
  - apply andb_true_iff in H as [H Hd]. apply andb_true_iff in H as [Hf He].
    split; [exact He|]. split; [exact Hd|]. intros f Hff. unfold ok. cbn [cl_node emits_only].
    change (forallb (fun e => match e with (_, b) => emits_only allow b end) f) with (emits_only_frame allow f). unfold okf in Hff.
    rewrite Hf, Hff, Hd. reflexivity.
  - split; [exact H|]. split; [reflexivity|]. intros f Hff. exact Hff.
Qed.
Lemma eval_apply_still fn args named file pos : ok fn -> okl args -> oknamed named ->
  still ok (eval_apply ec self fn args named file pos).
Proof.
  intros Hf Ha Hn. unfold eval_apply. apply still_bind with (P := ok); [apply Hs, Hf|]. intros f Hf'.
  apply still_bind with (P := okl); [apply eval_list_still, Ha|]. intros args' Ha'.
  destruct (as_closure _ f) as [c|] eqn:Ec; [apply apply_closure_still; try assumption; apply (okc_as _ _ _ Hf' Ec)|].
  assert (Hre : ok (NApply f args' named file pos)).
  { unfold ok. cbn [emits_only]. unfold okl in Ha'. rewrite Hf', Ha'. exact Hn. }
  destruct f; cbn [str_of];
    try (apply apply_str_still; assumption);
    try (apply named_unexpected_still);
    try (apply apply_builtin_still; assumption);
    try (apply apply_special_still; assumption);
    try (apply apply_number_still; assumption);
    try (apply still_ret; first [exact Hre|exact Hf']);
    try (destruct args'; [destruct named; [apply Hs, Hf'|apply still_throw]|apply still_throw]).
  - destruct args'; [destruct named|]; try apply still_throw.
    apply still_bind with (P := fun _ => True); [apply still_lift; auto|]. intros _ _. apply still_ret. reflexivity.
  - eapply still_bind; [apply foreach_still; assumption|]. intros r Hr. apply still_ret, Hr.
  - apply Hs. unfold ok. cbn [emits_only]. unfold okl in Ha'. unfold ok in Hf'. cbn [emits_only] in Hf'. rewrite Hf', Ha'. exact Hn.
Qed.
Lemma lambda_loop_still b : forall late dflt f,
  forallb (fun e => match e with (_, d) => emits_only allow d end) b = true -> okf dflt -> okf f ->
  still (fun r => okf (snd (fst r)) /\ okf (snd r)) (lambda_loop self b late dflt f).
Proof.
  induction b as [|[[lt v] d] b IH]; intros late dflt f Hb Hd Hf; cbn [lambda_loop]; [apply still_ret; auto|].
  cbn [forallb] in Hb. apply andb_true_iff in Hb as [Hdd Hb]. cbv zeta.
  apply still_bind with (P := okf).
  - assert (H : still okf (ebind (self d) (fun v0 => eret (dict_set (s_txt v) v0 dflt)))).
    { apply still_bind with (P := ok); [apply Hs, Hdd|]. intros w Hw. apply still_ret, okf_dict_set; assumption. }
    destruct d; try exact H. apply still_ret, Hd.
  - intros dd Hdl. apply IH; [exact Hb|exact Hdl|]. apply okf_set; [reflexivity|exact Hf].
Qed.
Lemma eval_lambda_still b f : forallb (fun e => match e with (_, d) => emits_only allow d end) b = true -> ok f ->
  still ok (eval_lambda self b f).
Proof.
  intros Hb Hf. unfold eval_lambda. eapply still_bind; [apply lambda_loop_still; [exact Hb| |]; reflexivity|].
  intros [[late dflt] fr] [Hd Hfr]. apply Hs. unfold ok. cbn [emits_only].
  cbn [fst snd] in Hd, Hfr. unfold okf, emits_only_frame in Hd, Hfr. rewrite Hf, Hd, Hfr. reflexivity.
Qed.
Lemma assign_list_still vars : forall vals f, okl vals -> okf f -> still okf (assign_list vars vals f).
Proof.
  induction vars as [|v vars IH]; intros vals f Hv Hf; cbn [assign_list]; [apply still_ret, Hf|].
  destruct vals as [|x vals].
  - apply still_bind with (P := fun _ => True); [apply still_lift; auto|]. intros _ _.
    apply IH; [reflexivity|apply okf_set; [reflexivity|exact Hf]].
  - apply okl_cons in Hv. apply IH; [tauto|apply okf_set; tauto].
Qed.
Lemma eval_binding_still lv a : ok a -> still okf (eval_binding self lv a).
Proof.
  intros Ha. unfold eval_binding. cbv zeta.
  assert (H0 : okf (fold_left (fun f v => frame_set (s_txt v) NBound f)
                      (match lv with LAtom a0 => [a0] | LList l => l end) [])) by (apply (okf_fold s_txt); reflexivity).
  eapply still_bind; [apply still_in_frame; [exact H0|apply Hs, Ha]|]. intros [v f1] [Hv Hf1].
  cbn [fst snd] in Hv, Hf1. destruct lv as [b|l].
  - apply still_ret, okf_set; assumption.
  - destruct (list_of v) eqn:El; [apply assign_list_still; [apply (ok_list_of _ _ Hv El)|exact Hf1]|].
    apply still_ret. apply okf_fold_v; assumption.
Qed.
Lemma eval_set_still lv a : ok a -> still ok (eval_set ec self lv a).
Proof.
  intros Ha. unfold eval_set.
  assert (H : still ok (ebind (eval_binding self lv a) (fun f => eret (NEnv f)))).
  { eapply still_bind; [apply eval_binding_still, Ha|]. intros f Hf. apply still_ret, Hf. }
  destruct lv; [|exact H]. destruct (teqb _ _); [|exact H].
  apply still_bind with (P := ok); [apply Hs, Ha|]. intros v _. apply still_bind with (P := fun _ => True).
  - destruct (str_of v); apply still_lift; auto.
  - intros _ _. apply still_ret. reflexivity.
Qed.
Lemma eval_eval_still a decl call : ok a -> still ok (eval_eval ec self parse a decl call).
Proof.
  intros Ha. unfold eval_eval. apply still_bind with (P := ok); [apply Hs, Ha|]. intros v Hv.
  destruct (str_of v); [|apply still_ret, Hv]. cbv zeta. apply still_bind with (P := okl).
  - apply still_lift. intros s r s' H. unfold bind, get_st, modify in H. apply (proj1 Hctx) in H. exact H.
  - intros r Hr. destruct r as [|x [|y r]]; [apply still_ret; reflexivity| |].
    + destruct (is_set x); [apply still_ret, Hr|]. apply Hs. apply okl_cons in Hr. tauto.
    + destruct (existsb is_set (x :: y :: r)); [apply still_ret|apply Hs]; exact Hr.
Qed.
Lemma dict_set_agrees k v f : allow k = true -> dict_mem k f = true -> frame_agrees allow f (dict_set k v f).
Proof.
  intros Hk. induction f as [|[k' v'] f IH]; unfold dict_mem; cbn [dict_get dict_set]; [discriminate|].
  destruct (teqb_spec k k') as [Et|Et]; intros H.
  - subst k'. constructor; [cbn [fst]; auto|apply frame_agrees_refl].
  - constructor; [auto|apply IH, H].
Qed.
Lemma update_still k v : allow k = true -> ok v -> still (fun _ => True) (mod_env (update_variable k v)).
Proof.
  intros Hk Hv e s a e' s' He H. injection H as <- <- <-.
  assert (H : env_agrees allow e (update_variable k v e) /\ emits_only_env allow (update_variable k v e) = true); [|tauto].
  induction e as [|f e IH]; cbn [update_variable]; [split; [constructor|reflexivity]|].
  unfold emits_only_env in He. cbn [forallb] in He. apply andb_true_iff in He as [Hf He].
  destruct (dict_mem k f) eqn:Em.
  - split; [constructor; [apply dict_set_agrees; assumption|apply env_agrees_refl]|].
    unfold emits_only_env. cbn [forallb]. rewrite He, andb_true_r. apply okf_dict_set; assumption.
  - destruct (IH He) as [I1 I2]. split; [constructor; [apply frame_agrees_refl|exact I1]|].
    unfold emits_only_env in *. cbn [forallb]. rewrite Hf. exact I2.
Qed.
Lemma eval_emit_still r a ast : allow (s_txt a) = true -> ok ast -> still ok (eval_emit self r a ast).
Proof.
  intros Ha Hast. unfold eval_emit. eapply still_bind; [apply still_env|]. intros e He.
  destruct (lookup e (s_txt a)) as [v|] eqn:El; [|apply still_throw].
  pose proof (ok_lookup _ _ _ He El) as Hv.
  assert (H : forall result v', ok result -> ok v' ->
    still ok (ebind (mod_env (update_variable (s_txt a) v')) (fun _ =>
      if truthy ast then ebind (self (NApply ast [v'] [] None 0)) (fun w =>
        ebind (mod_env (update_variable (s_txt a) w)) (fun _ => eret result)) else eret result))).
  { intros result v' Hr Hv'. eapply still_bind; [apply update_still; assumption|]. intros _ _.
    destruct (truthy ast); [|apply still_ret, Hr]. apply still_bind with (P := ok).
    - apply Hs. unfold ok in *. cbn [emits_only forallb]. rewrite Hast, Hv'. reflexivity.
    - intros w Hw. eapply still_bind; [apply update_still; assumption|]. intros _ _. apply still_ret, Hr. }
  destruct v; try (apply H; exact Hv).
  - destruct l as [|x l]; [apply H; [reflexivity|exact Hv]|]. apply okl_cons in Hv as [Hx Hl]. apply H; assumption.
  - destruct l as [|x l]; [apply H; [reflexivity|exact Hv]|]. apply okl_cons in Hv as [Hx Hl]. apply H; assumption.
  - apply still_ret. unfold ok. cbn [emits_only]. rewrite Ha. exact Hast.
Qed.
Lemma eval_body_still x : ok x -> still ok (eval_body ec self parse x).
Proof.
  intros Hx. destruct x; cbn [eval_body]; try (apply still_ret; exact Hx).
  - apply still_bind with (P := okl); [apply list_loop_still; [exact Hx|reflexivity]|]. intros r Hr. apply still_ret, Hr.
  - apply eval_T_still, Hx.
  - apply Hs, Hx.
  - unfold eval_var. eapply still_bind; [apply still_env|]. intros e He.
    destruct (lookup e (s_txt a)) as [v|] eqn:El.
    + pose proof (ok_lookup _ _ _ He El) as Hv. destruct v; apply still_ret; first [exact Hv|reflexivity].
    + destruct r as [|[|y r]]; [apply still_ret; reflexivity| |apply still_throw].
      eapply still_bind; [apply find_builtin_still|]. intros [b|] _; [apply still_ret; reflexivity|].
      destruct (is_special _); [apply still_ret; reflexivity|].
      destruct (has_char _ _); apply still_ret; reflexivity.
  - unfold ok in Hx. cbn [emits_only] in Hx. apply andb_true_iff in Hx as [Hx Hn]. apply andb_true_iff in Hx as [Hf Ha].
    apply eval_apply_still; assumption.
  - apply eval_eval_still, Hx.
  - apply still_bind with (P := ok); [apply Hs, Hx|]. intros v Hv. destruct (str_of v); [|apply still_ret, Hv].
    apply still_bind with (P := fun _ => True); [apply still_lift; auto|]. intros nm _.
    eapply still_bind; [apply still_env|]. intros e He. apply Hs. apply okf_infix.
  - apply still_bind with (P := ok); [apply Hs, Hx|]. intros v Hv. apply still_ret, Hv.
  - apply eval_set_still, Hx.
  - unfold ok in Hx. cbn [emits_only] in Hx. apply andb_true_iff in Hx as [H1 H2].
    eapply still_bind; [apply eval_binding_still, H1|]. intros f Hf.
    eapply still_bind; [apply still_in_frame; [exact Hf|apply Hs, H2]|]. intros [v f'] [Hv _]. apply still_ret, Hv.
  - apply still_ret. unfold ok. cbn [emits_only forallb]. rewrite andb_true_r. apply (okf_fold s_txt). reflexivity.
  - unfold ok in Hx. cbn [emits_only] in Hx. apply andb_true_iff in Hx as [H1 H2]. apply eval_emit_still; assumption.
  - unfold ok in Hx. cbn [emits_only] in Hx. apply andb_true_iff in Hx as [H1 H2]. apply eval_lambda_still; assumption.
  - eapply still_bind; [apply still_env|]. intros e He. destruct (lookup e (s_txt a)) as [v|] eqn:El; [|apply still_throw].
    assert (H : still ok (match list_of v with
      | Some l => match list_to_bound l with Some b => eval_lambda self b x | None => ethrow TypeError "yueval: illegal parameters list"%string end
      | None => ethrow TypeError "yueval: illegal parameters list"%string end)).
    { destruct (list_of v) as [l|]; [|apply still_throw]. destruct (list_to_bound l) eqn:Eb; [|apply still_throw].
      apply eval_lambda_still; [apply (ok_list_to_bound _ _ Eb)|exact Hx]. }
    destruct v; try exact H. apply still_ret, Hx.
  - unfold ok in Hx. cbn [emits_only] in Hx. apply andb_true_iff in Hx as [H12 H3]. apply andb_true_iff in H12 as [H1 H2].
    apply still_bind with (P := ok); [apply Hs, H1|]. intros v Hv. destruct (is_term v).
    + apply Hs. destruct (truthy v); assumption.
    + apply still_ret. unfold ok. cbn [emits_only]. rewrite Hv, H2, H3. reflexivity.
  - unfold ok in Hx. cbn [emits_only] in Hx. apply andb_true_iff in Hx as [H12 H3]. apply andb_true_iff in H12 as [H1 H2].
    eapply still_bind; [apply still_in_frame; [exact H2|apply Hs, H1]|]. intros [v f'] [Hv Hf].
    cbn [fst snd] in Hv, Hf. unfold emits_only_frame in Hf. destruct (unassigned env); apply still_ret; [|exact Hv].
    unfold ok. cbn [emits_only]. rewrite Hv, Hf, H3. reflexivity.
  - eapply still_bind; [apply eval_local_still, Hx|]. intros [f b] Hf. destruct b; [apply Hs; reflexivity|apply still_ret, Hf].
  - eapply still_bind; [apply eval_local_still, Hx|]. intros [f b] Hf. destruct b; [|apply still_ret, Hf].
    apply still_bind with (P := ok); [|intros v Hv; apply still_ret, ok_const_result, Hv].
    apply still_lift. intros s v s' H. unfold lift in H. destruct (e_infix ec _ f) eqn:Ei; try discriminate H.
    injection H as <- <-. destruct Hctx as (_ & _ & _ & Hi). exact (Hi _ _ _ Hf Ei).
  - unfold ok in Hx. cbn [emits_only] in Hx. apply andb_true_iff in Hx as [H12 H3]. apply andb_true_iff in H12 as [H1 H2].
    apply still_bind with (P := ok); [apply Hs, H1|]. intros v Hv. destruct (is_term v).
    + apply still_bind with (P := ok); [apply Hs; destruct (truthy v); assumption|]. intros w Hw. apply Hs, Hw.
    + apply still_bind with (P := ok); [apply Hs, H2|]. intros w1 Hw1. apply still_bind with (P := ok); [apply Hs, H3|].
      intros w2 Hw2. apply still_ret. unfold ok. cbn [emits_only]. rewrite Hv, Hw1, Hw2. reflexivity.
  - unfold ok in Hx. cbn [emits_only] in Hx. apply andb_true_iff in Hx as [H1 H2].
    eapply still_bind; [apply still_in_frame; [exact H2|apply Hs, H1]|]. intros [v f'] [Hv Hf].
    cbn [fst snd] in Hv, Hf. unfold emits_only_frame in Hf. destruct (is_term v); apply still_ret; [exact Hv|].
    unfold ok. cbn [emits_only]. rewrite Hv, Hf. reflexivity.
  - apply still_bind with (P := ok); [apply Hs, Hx|]. intros v Hv. apply still_ret, Hv.
Qed.
End Pure.

Lemma yueval_still ec parse n : emits_only_ctx allow ec parse -> forall x, ok x -> still ok (yueval ec parse n x).
Proof.
  intros Hc. induction n as [|n IH]; intros x Hx; [intros e s a e' s' _ H; discriminate H|].
  cbn [yueval]. apply eval_body_still; assumption.
Qed.
End Allow.
