(** Expressions with calls of functions: how they are evaluated (proofs only). *)
From Coq Require Import List NArith ZArith Bool String Lia ZifyBool ZifyNat ZifyN.
From Verif Require Import PyStr Ast Lex Parse Final Eval PyStrFacts EnvSpec EnvFacts EvalSpec EvalMono EvalKeep EvalPure EvalFacts EvalFacts2 EvalFacts3 EvalFacts4 ApplyFacts ApplyFacts2 ApplyFacts3 ApplyFacts4 CoreSpec CoreFacts.
Import ListNotations.
Open Scope list_scope.

(** ** Expressions with the values of their names, and the bodies of the functions they call *)
Inductive iexp :=
| IValue (v : node)
| IGlobal (r : region) (a : source) (v : node)
| IParam (r : region) (a : source) (v : node)
| ISub (r : region) (a : source) (A : iexp)
| IList (l : list iexp)
| ICond (c a b : iexp)
| ICall (f : source) (args : list iexp) (file : option text) (pos : Z)
| IPick (z : Z) (args : list iexp) (file : option text) (pos : Z)
| IShow (E : iexp) (file : option text) (pos : Z)
| IInfix (ast : node) (t : text) (ns ks : list text) (vals : list iexp) (file : option text) (pos : Z)
| ILit (s : source) (i : indent)
| IText (l : list iexp) (sq q : nat)
| IUse (f : source) (ps own : list text) (args : list iexp) (B : iexp) (file : option text) (pos : Z).
Fixpoint itree (E : iexp) : node :=
  match E with
  | IValue v => v
  | IGlobal r a _ | IParam r a _ | ISub r a _ => NVar r a
  | IList l => NList (map itree l)
  | ICond c a b => NCond (itree c) (itree a) (itree b)
  | ICall f args file pos | IUse f _ _ args _ file pos => NApply (NVar (RList []) f) (map itree args) [] file pos
  | IPick z args file pos => NApply (NInt z) (map itree args) [] file pos
  | IShow E file pos => NApply (itree E) [] [] file pos
  | IInfix ast _ _ _ _ file pos => NInfix ast file pos
  | ILit s i => NPlain s i false
  | IText l sq q => NText (map itree l) sq q
  end.
Lemma Forall_impl2 {A} (P Q : A -> Prop) l : Forall (fun x => P x -> Q x) l -> Forall P l -> Forall Q l.
Proof. intros H K. induction K; inversion H; subst; constructor; auto. Qed.
Section Ind.
Variable P : iexp -> Prop.
Hypotheses (Pval : forall v, P (IValue v)) (Pglob : forall r a v, P (IGlobal r a v)) (Ppar : forall r a v, P (IParam r a v))
  (Psub : forall r a A, P A -> P (ISub r a A)) (Plist : forall l, Forall P l -> P (IList l))
  (Pcond : forall c a b, P c -> P a -> P b -> P (ICond c a b))
  (Pcall : forall f l file pos, Forall P l -> P (ICall f l file pos))
  (Ppick : forall z l file pos, Forall P l -> P (IPick z l file pos))
  (Pshow : forall E file pos, P E -> P (IShow E file pos))
  (Pinfix : forall a t ns ks l file pos, Forall P l -> P (IInfix a t ns ks l file pos)) (Plit : forall s i, P (ILit s i))
  (Ptext : forall l sq q, Forall P l -> P (IText l sq q))
  (Puse : forall f ps own l B file pos, Forall P l -> P B -> P (IUse f ps own l B file pos)).
Fixpoint iexp_nest (E : iexp) : P E :=
  let all := fix all l : Forall P l := match l with [] => Forall_nil _ | E :: r => Forall_cons E (iexp_nest E) (all r) end in
  match E with
  | IValue v => Pval v
  | IGlobal r a v => Pglob r a v
  | IParam r a v => Ppar r a v
  | ISub r a A => Psub r a A (iexp_nest A)
  | IList l => Plist l (all l)
  | ICond c a b => Pcond c a b (iexp_nest c) (iexp_nest a) (iexp_nest b)
  | ICall f l file pos => Pcall f l file pos (all l)
  | IPick z l file pos => Ppick z l file pos (all l)
  | IShow E file pos => Pshow E file pos (iexp_nest E)
  | IInfix a t ns ks l file pos => Pinfix a t ns ks l file pos (all l)
  | ILit s i => Plit s i
  | IText l sq q => Ptext l sq q (all l)
  | IUse f ps own l B file pos => Puse f ps own l B file pos (all l) (iexp_nest B)
  end.
End Ind.
Definition floppy (E : iexp) : Prop := match E with ICond _ _ _ | ISub _ _ _ => True | _ => False end.
(** no conditional in an expression as it is written; none in the branch of a conditional *)
Fixpoint nocond (E : iexp) : Prop :=
  let all := fix all l := match l with [] => True | E :: l => nocond E /\ all l end in
  match E with
  | ICond _ _ _ => False
  | IList l | ICall _ l _ _ | IPick _ l _ _ | IText l _ _ | IUse _ _ _ l _ _ _ => all l
  | IShow E _ _ => nocond E
  | _ => True
  end.
Fixpoint flat (E : iexp) : Prop :=
  let all := fix all l := match l with [] => True | E :: l => flat E /\ all l end in
  match E with
  | ICond c a b => flat c /\ nocond a /\ nocond b
  | IList l | ICall _ l _ _ | IPick _ l _ _ | IText l _ _ | IUse _ _ _ l _ _ _ => all l
  | IShow E _ _ => flat E
  | _ => True
  end.
(** the names of the expression as it is written are not in [H] *)
Fixpoint clean (H : text -> Prop) (E : iexp) : Prop :=
  let all := fix all l := match l with [] => True | E :: l => clean H E /\ all l end in
  match E with
  | IParam _ a _ | ISub _ a _ => ~ H (s_txt a)
  | ICond c a b => clean H c /\ clean H a /\ clean H b
  | IList l | ICall _ l _ _ | IPick _ l _ _ | IText l _ _ | IUse _ _ _ l _ _ _ | IInfix _ _ _ _ l _ _ => all l
  | IShow E _ _ => clean H E
  | _ => True
  end.
Definition nocondl := fix all l := match l with [] => True | E :: l => nocond E /\ all l end.
Definition flatl := fix all l := match l with [] => True | E :: l => flat E /\ all l end.
Definition cleanl H := fix all l := match l with [] => True | E :: l => clean H E /\ all l end.
Lemma nocondl_spec l : nocondl l <-> Forall nocond l.
Proof. induction l as [|E l IH]; cbn [nocondl]; split; intros K; try constructor; try apply K; try apply IH; try apply K; inversion K; subst; tauto. Qed.
Lemma flatl_spec l : flatl l <-> Forall flat l.
Proof. induction l as [|E l IH]; cbn [flatl]; split; intros K; try constructor; try apply K; try apply IH; try apply K; inversion K; subst; tauto. Qed.
Lemma cleanl_spec H l : cleanl H l <-> Forall (clean H) l.
Proof. induction l as [|E l IH]; cbn [cleanl]; split; intros K; try constructor; try apply K; try apply IH; try apply K; inversion K; subst; tauto. Qed.
Lemma nocond_flat E : nocond E -> flat E.
Proof.
  induction E using iexp_nest; cbn [nocond flat]; intros K; try exact Logic.I; try contradiction; auto;
    apply flatl_spec; apply nocondl_spec in K; eapply Forall_impl2; eassumption.
Qed.
Lemma clean_less (H N : text -> Prop) E : (forall a, N a -> H a) -> clean H E -> clean N E.
Proof.
  intros Hs. induction E using iexp_nest; cbn [clean]; intros K; try exact Logic.I; auto; try (intros Ha; apply K, Hs, Ha); try tauto;
    apply cleanl_spec; apply cleanl_spec in K; eapply Forall_impl2; eassumption.
Qed.

Section Use.
Variables (ec : ectx) (parse : text -> M (list node)).
Notation ev := (yueval ec parse).
Notation evs := (evals ec parse).
Variable shift : text -> text -> text -> Prop.
Hypothesis Hshift : forall i u w, shift i u w -> w = trim (e_trim ec) i u.
Hypothesis Hbr : e_browse ec = false.

Inductive imean : iexp -> node -> Prop :=
| IM_value v : data v -> imean (IValue v) v
| IM_global r a v : data v -> imean (IGlobal r a v) v
| IM_param r a v : data v -> imean (IParam r a v) v
| IM_sub r a A v : flat A -> imean A v -> imean (ISub r a A) v
| IM_list l vs : Forall2 imean l vs -> imean (IList l) (NList vs)
| IM_cond c a b vc va vb w : imean c vc -> imean a va -> imean b vb -> selects vc va vb w -> imean (ICond c a b) w
| IM_call f args file pos vs w : Forall2 imean args vs -> function_gives ec (s_txt f) vs w -> data w -> imean (ICall f args file pos) w
| IM_pick z args file pos vs l w : Forall2 imean args vs -> indexed vs l -> element l z w -> data w -> imean (IPick z args file pos) w
| IM_show E file pos v u : imean E v -> value_text v u -> imean (IShow E file pos) v
| IM_infix ast t ns ks vals file pos ws v : constant_text ec parse ast t -> e_names ec (lstrip t) = Ok ns ->
    List.length ks = List.length vals -> Forall2 imean vals ws -> e_infix ec (lstrip t) (combine ks ws) = Ok v -> data (const_result v) ->
    imean (IInfix ast t ns ks vals file pos) (const_result v)
| IM_lit s i : imean (ILit s i) (NPlain s i false)
| IM_text l sq q vs t : Forall2 imean l vs -> Forall (fun E => ~ floppy E) l ->
    written shift (IndStr []) (map itree l) vs t -> imean (IText l sq q) (NRaw t)
| IM_use f ps own args B file pos vs w : Forall2 imean args vs -> List.length ps = List.length args -> ps <> [] -> NoDup ps -> ~ In va_args ps ->
    Forall flat args -> flat B -> incl own ps -> imean B w -> imean (IUse f ps own args B file pos) w.
Ltac csel := repeat match goal with H : selects _ _ _ _ |- _ => apply (selects_if parse) in H end; subst.
Lemma imean_data E : forall v, imean E v -> data v.
Proof.
  induction E using iexp_nest; intros w Hw; inversion Hw; subst; try assumption; try (constructor; fail); auto.
  - constructor. match goal with H : Forall2 imean l vs |- _ => revert H end. clear - H. revert vs.
    induction H as [|E l HE _ IH]; intros vs F; inversion F; subst; constructor; auto.
  - csel. destruct (truthy vc); auto.
Qed.
Lemma imean_list_data l vs : Forall2 imean l vs -> Forall data vs.
Proof. induction 1; constructor; [eapply imean_data; eassumption|assumption]. Qed.
Variable s : yst.
Lemma imean_det E : forall v w, imean E v -> imean E w -> v = w.
Proof.
  induction E using iexp_nest; intros x y Hx Hy; inversion Hx; inversion Hy; subst; try reflexivity; auto.
  - f_equal. eapply all2_det; eassumption.
  - csel. assert (vc0 = vc) by auto. subst. destruct (truthy vc); auto.
  - assert (vs0 = vs) by (eapply all2_det; eassumption). subst. eapply function_det; [exact s|eassumption|eassumption].
  - assert (vs0 = vs) by (eapply all2_det; eassumption). subst. assert (l1 = l0) by (eapply indexed_det; eassumption). subst.
    eapply element_det; eassumption.
  - assert (ws0 = ws) by (eapply all2_det; eassumption). subst. congruence.
  - assert (vs0 = vs) by (eapply all2_det; eassumption). subst. f_equal.
    repeat match goal with H : written _ _ _ _ _ |- _ => apply (written_plain ec _ Hshift) in H end. congruence.
Qed.

(** ** What an expression becomes while parameters are filled in *)
(** [ires H o E x]: [x] may stand for [E] during the evaluation; the names [H] do not occur any
    more; [o]: the conditionals have been looked at once *)
Definition with_names (H : text -> Prop) (l : list text) (a : text) : Prop := H a \/ In a l.
Fixpoint ires (H : text -> Prop) (o : bool) (E : iexp) (x : node) {struct E} : Prop :=
  let all2 := fix all2 l xs := match l, xs with
    | [], [] => True
    | E :: l, x :: xs => ires H o E x /\ all2 l xs
    | _, _ => False end in
  (x = itree E /\ clean H E /\ (o = true -> nocond E)) \/ imean E x \/
  match E with
  | IParam r a v => exists r' a', x = NVar r' a' /\ s_txt a' = s_txt a /\ ~ H (s_txt a)
  | ISub r a A => (exists r' a', x = NVar r' a' /\ s_txt a' = s_txt a /\ ~ H (s_txt a)) \/ ires H true A x
  | IList l => exists xs, x = NList xs /\ all2 l xs
  | ICond c a b => (exists xc xa xb, x = NCondClosure xc xa xb /\ ires H o c xc /\ ires H o a xa /\ ires H o b xb) \/
      (exists vc, imean c vc /\ ires H o (if truthy vc then a else b) x)
  | ICall f l file pos => exists xs, x = NApply (NBuiltin f) xs [] file pos /\ all2 l xs
  | IPick z l file pos => exists xs, x = NApply (NInt z) xs [] file pos /\ all2 l xs
  | IShow E file pos => (exists y, x = NApply y [] [] file pos /\ ires H o E y) \/ ires H o E x
  | IInfix ast t ns ks vals file pos => exists xs, x = NInfixClosure t (combine ks xs) file pos /\ all2 vals xs
  | IText l sq q => exists xs, x = NT (pieces (IndStr []) (map itree l) xs) (IndStr []) /\ is_term x = false /\ all2 l xs
  | IUse f ps own l B file pos => ires (with_names H own) true B x
  | _ => False
  end.
Definition ires2 H o := fix all2 l xs := match l, xs with
    | [], [] => True
    | E :: l, x :: xs => ires H o E x /\ all2 l xs
    | _, _ => False end.
Lemma ires2_spec H o l xs : ires2 H o l xs <-> Forall2 (ires H o) l xs.
Proof.
  revert xs. induction l as [|E l IH]; intros [|x xs]; cbn [ires2]; split; intros K; try constructor; try contradiction; try (inversion K; subst; fail).
  - apply K.
  - apply IH, K.
  - inversion K; subst; assumption.
  - apply IH. inversion K; subst; assumption.
Qed.
Lemma ires_tree H o E : clean H E -> (o = true -> nocond E) -> ires H o E (itree E).
Proof. destruct E; left; auto. Qed.
Lemma ires_mean H o E v : imean E v -> ires H o E v.
Proof. destruct E; right; left; assumption. Qed.
Lemma ires_trees H o l : Forall (clean H) l -> (o = true -> Forall nocond l) -> Forall2 (ires H o) l (map itree l).
Proof.
  intros K Q. induction K as [|E l K1 _ IH]; constructor.
  - apply ires_tree; [exact K1|]. intros Ho. specialize (Q Ho). inversion Q; assumption.
  - apply IH. intros Ho. specialize (Q Ho). inversion Q; assumption.
Qed.
Lemma ires_means H o l vs : Forall2 imean l vs -> Forall2 (ires H o) l vs.
Proof. induction 1; constructor; auto using ires_mean. Qed.
Lemma imean_list_inv l v : imean (IList l) v -> exists vs, v = NList vs /\ Forall2 imean l vs.
Proof. intros H; inversion H; subst. eauto. Qed.
Lemma ires_list_inv H o l x : ires H o (IList l) x -> exists xs, x = NList xs /\ Forall2 (ires H o) l xs.
Proof.
  intros [(-> & K1 & K2)|[K|(xs & -> & K)]].
  - exists (map itree l). split; [reflexivity|apply ires_trees]; [apply cleanl_spec, K1|intros Ho; apply nocondl_spec, (K2 Ho)].
  - apply imean_list_inv in K as (vs & -> & K). exists vs. split; [reflexivity|apply ires_means, K].
  - exists xs. split; [reflexivity|]. apply ires2_spec, K.
Qed.
Lemma ires_shape E : forall H o v x, imean E v -> ires H o E x -> shape x.
Proof.
  induction E using iexp_nest; intros H' o w x Hw Hx; try (apply ires_list_inv in Hx as (xs & -> & _); exact Logic.I);
    (destruct Hx as [(-> & _)|[Hx|Hx]]; [|apply data_shape; eapply imean_data; exact Hx|]); try exact Logic.I; try contradiction.
  - inversion Hw; subst. apply data_shape. assumption.
  - destruct Hx as (r' & a' & -> & _). exact Logic.I.
  - inversion Hw; subst. destruct Hx as [(r' & a' & -> & _)|Hx]; [exact Logic.I|eauto].
  - inversion Hw; subst; csel. destruct Hx as [(xc & xa & xb & -> & _)|(vc' & Hc & Hx)]; [exact Logic.I|].
    destruct (truthy vc'); eauto.
  - destruct Hx as (xs & -> & _). exact Logic.I.
  - destruct Hx as (xs & -> & _). exact Logic.I.
  - inversion Hw; subst. destruct Hx as [(y & -> & _)|Hx]; [exact Logic.I|eauto].
  - destruct Hx as (xs & -> & _). exact Logic.I.
  - destruct Hx as (xs & -> & _). exact Logic.I.
  - inversion Hw; subst. eauto.
Qed.
Lemma itree_shape E v : imean E v -> shape (itree E).
Proof.
  intros K. destruct E; try exact Logic.I. inversion K; subst. apply data_shape. assumption.
Qed.
Lemma ires_alive E : forall H o v x, imean E v -> ires H o E x -> detect_deadlock x = false.
Proof.
  assert (K : forall l, Forall (fun E => forall H o v x, imean E v -> ires H o E x -> detect_deadlock x = false) l ->
    forall H o vs xs, Forall2 imean l vs -> Forall2 (ires H o) l xs -> Forall (fun x => detect_deadlock x = false) xs).
  { induction 1 as [|E' l HE _ IH]; intros H o vs xs H1 H2; inversion H1; inversion H2; subst; constructor; eauto. }
  induction E using iexp_nest; intros H' o w x Hw Hx; try (apply ires_list_inv in Hx as (xs & -> & Hx); inversion Hw; subst; apply alive_list; eapply K; eassumption);
    (destruct Hx as [(-> & _)|[Hx|Hx]]; [|apply term_alive, data_term; eapply imean_data; exact Hx|]); try reflexivity; try contradiction.
  - inversion Hw; subst. apply term_alive, data_term. assumption.
  - destruct Hx as (r' & a' & -> & _). reflexivity.
  - inversion Hw; subst. destruct Hx as [(r' & a' & -> & _)|Hx]; [reflexivity|eauto].
  - inversion Hw; subst; csel. destruct Hx as [(xc & xa & xb & -> & _)|(vc' & Hc & Hx)]; [reflexivity|].
    destruct (truthy vc'); eauto.
  - destruct Hx as (xs & -> & _). reflexivity.
  - destruct Hx as (xs & -> & _). reflexivity.
  - inversion Hw; subst. destruct Hx as [(y & -> & _)|Hx]; [reflexivity|eauto].
  - destruct Hx as (xs & -> & _). reflexivity.
  - destruct Hx as (xs & -> & _ & Hx). apply ires2_spec in Hx. inversion Hw; subst. cbn [detect_deadlock]. apply alive_pieces. eapply K; eassumption.
  - inversion Hw; subst. eauto.
Qed.
Lemma ires_term E : forall H o v x, imean E v -> ires H o E x -> is_term x = true -> x = v.
Proof.
  assert (K : forall l, Forall (fun E => forall H o v x, imean E v -> ires H o E x -> is_term x = true -> x = v) l ->
    forall H o vs xs, Forall2 imean l vs -> Forall2 (ires H o) l xs -> forallb is_term xs = true -> xs = vs).
  { induction 1 as [|E' l HE _ IH]; intros H o vs xs H1 H2 Ht; inversion H1; inversion H2; subst; [reflexivity|].
    cbn [forallb] in Ht. apply andb_true_iff in Ht as [Ht1 Ht2]. f_equal; eauto. }
  induction E using iexp_nest; intros H' o w x Hw Hx Ht;
    try (apply ires_list_inv in Hx as (xs & -> & Hx); inversion Hw; subst; f_equal; eapply K; eassumption);
    (destruct Hx as [(-> & _)|[Hx|Hx]]; [|eapply imean_det; [exact Hx|exact Hw]|]); try discriminate Ht; try contradiction.
  - inversion Hw; subst. reflexivity.
  - destruct Hx as (r' & a' & -> & _). discriminate Ht.
  - inversion Hw; subst. destruct Hx as [(r' & a' & -> & _)|Hx]; [discriminate Ht|eauto].
  - inversion Hw; subst; csel. destruct Hx as [(xc & xa & xb & -> & _)|(vc' & Hc & Hx)]; [discriminate Ht|].
    assert (vc' = vc) by (eapply imean_det; eassumption). subst. destruct (truthy vc); eauto.
  - destruct Hx as (xs & -> & _). discriminate Ht.
  - destruct Hx as (xs & -> & _). discriminate Ht.
  - inversion Hw; subst. destruct Hx as [(y & -> & _)|Hx]; [discriminate Ht|eauto].
  - destruct Hx as (xs & -> & _). discriminate Ht.
  - inversion Hw; subst. reflexivity.
  - destruct Hx as (xs & -> & Hx & _). congruence.
  - inversion Hw; subst. eauto.
Qed.
Lemma ires_terms H o l vs xs : Forall2 imean l vs -> Forall2 (ires H o) l xs -> forallb is_term xs = true -> xs = vs.
Proof.
  intros H1. revert xs. induction H1 as [|E' v l vs Hv _ IH]; intros xs H2 Ht; inversion H2; subst; [reflexivity|].
  cbn [forallb] in Ht. apply andb_true_iff in Ht as [Ht1 Ht2]. f_equal; [eapply ires_term; eassumption|auto].
Qed.
Lemma ires_not_list E : forall H o v xs, imean E v -> ires H o E (NList xs) -> exists vs, v = NList vs.
Proof.
  induction E using iexp_nest; intros H' o w xs Hw Hx; try (inversion Hw; subst; eauto; fail);
    (destruct Hx as [(Hx & _)|[Hx|Hx]]; [try discriminate Hx|exists xs; eapply imean_det; [exact Hw|exact Hx]|]); try contradiction.
  - inversion Hw; subst. exists xs. symmetry. exact Hx.
  - destruct Hx as (r' & a' & Hx & _). discriminate Hx.
  - inversion Hw; subst. destruct Hx as [(r' & a' & Hx & _)|Hx]; [discriminate Hx|eauto].
  - inversion Hw; subst; csel. destruct Hx as [(xc & xa & xb & Hx & _)|(vc' & Hc & Hx)]; [discriminate Hx|].
    assert (vc' = vc) by (eapply imean_det; eassumption). subst. destruct (truthy vc); eauto.
  - destruct Hx as (ys & Hx & _). discriminate Hx.
  - destruct Hx as (ys & Hx & _). discriminate Hx.
  - inversion Hw; subst. destruct Hx as [(y & Hx & _)|Hx]; [discriminate Hx|eauto].
  - destruct Hx as (ys & Hx & _). discriminate Hx.
  - destruct Hx as (ys & Hx & _). discriminate Hx.
  - inversion Hw; subst. eauto.
Qed.
Lemma ires_not_apply H o E v x : imean E v -> ~ floppy E -> is_apply (itree E) = false -> ires H o E x -> is_apply x = false.
Proof.
  intros Hw Hc Ht Hx. destruct E; try discriminate Ht; try (exfalso; apply Hc; exact Logic.I);
    (destruct Hx as [(-> & _)|[Hx|Hx]]; [exact Ht|apply data_not_apply; eapply imean_data; exact Hx|]); try contradiction.
  - destruct Hx as (r' & a' & -> & _). reflexivity.
  - destruct Hx as (xs & -> & _). reflexivity.
  - destruct Hx as (xs & -> & _). reflexivity.
  - destruct Hx as (xs & -> & _). reflexivity.
Qed.

(** fewer names in [H]; names that do not occur *)
Lemma ires_less E : forall (H N : text -> Prop) (o o' : bool) x, (forall a, N a -> H a) -> (o' = true -> o = true) -> ires H o E x -> ires N o' E x.
Proof.
  assert (K : forall l, Forall (fun E => forall (H N : text -> Prop) (o o' : bool) x, (forall a, N a -> H a) -> (o' = true -> o = true) -> ires H o E x -> ires N o' E x) l ->
    forall (H N : text -> Prop) (o o' : bool) xs, (forall a, N a -> H a) -> (o' = true -> o = true) -> ires2 H o l xs -> ires2 N o' l xs).
  { induction 1 as [|E' l HE _ IH]; intros H N o o' [|x xs] Hs Ho; cbn [ires2]; try tauto. intros [K1 K2]. split; eauto. }
  induction E using iexp_nest; intros H' N o o' x Hs Ho [(-> & K1 & K2)|[Hx|Hx]]; try (apply ires_tree; [eapply clean_less; eassumption|auto]; fail);
    try (apply ires_mean; exact Hx); right; right; try contradiction.
  - destruct Hx as (r' & a' & -> & E & Hn). exists r', a'. split; [reflexivity|]. split; [exact E|]. intros Ha. apply Hn, Hs, Ha.
  - destruct Hx as [(r' & a' & -> & E' & Hn)|Hx]; [left; exists r', a'; split; [reflexivity|]; split; [exact E'|]; intros Ha; apply Hn, Hs, Ha|right; eapply IHE; eauto].
  - destruct Hx as (xs & -> & Hx). exists xs. split; [reflexivity|]. eapply (K l H); eassumption.
  - destruct Hx as [(xc & xa & xb & -> & Hc & Ha & Hb)|(vc & Hc & Hx)]; [left; exists xc, xa, xb; repeat split; eauto|].
    right. exists vc. split; [exact Hc|]. destruct (truthy vc); eauto.
  - destruct Hx as (xs & -> & Hx). exists xs. split; [reflexivity|]. eapply (K l H); eassumption.
  - destruct Hx as (xs & -> & Hx). exists xs. split; [reflexivity|]. eapply (K l H); eassumption.
  - destruct Hx as [(y & -> & Hy)|Hx]; [left; exists y; split; [reflexivity|eauto]|right; eauto].
  - destruct Hx as (xs & -> & Hx). exists xs. split; [reflexivity|]. eapply (K l H); eassumption.
  - destruct Hx as (xs & -> & Hi & Hx). exists xs. split; [reflexivity|]. split; [exact Hi|]. eapply (K l H); eassumption.
  - cbn beta iota in *. eapply IHE; [| |exact Hx]; [|auto]. intros a0 [Ha|Ha]; [left; auto|right; exact Ha].
Qed.
(** ** Environments in which the parameters are partly known *)
Definition partly (N : text -> Prop) (ps : list text) (l : list iexp) (fr : frame) : Prop :=
  NoDup (names fr) /\ (forall k, dict_mem k fr = true <-> In k ps) /\
  Forall2 (fun p A => exists w, dict_get p fr = Some w /\ (w = NBound \/ ires N true A w)) ps l.
Definition filled (ps : list text) (l : list iexp) (fr : frame) : Prop :=
  Forall2 (fun p A => exists v, dict_get p fr = Some v /\ imean A v) ps l.
(** the names that may still occur in the body of a function while it is applied, and afterwards *)
Definition inside (N : text -> Prop) (ps : list text) (a : text) : Prop := N a /\ ~ In a ps.
Definition after (N : text -> Prop) (ps own : list text) (a : text) : Prop := inside N ps a \/ (In a ps /\ (In a own \/ N a)).
(** [fit F H N E]: the environment [F] is fit for the evaluation of [E] without the names [H]; the
    names [N] do not occur in the result *)
Definition leaf_fit (F : env) (H N : text -> Prop) (a : text) (E : iexp) : Prop :=
  ~ H a -> exists w, lookup F a = Some w /\ ((w = NBound /\ ~ N a) \/ ires N true E w).
Fixpoint fit (F : env) (H N : text -> Prop) (E : iexp) {struct E} : Prop :=
  let all := fix all l := match l with [] => True | E :: l => fit F H N E /\ all l end in
  match E with
  | IValue _ | ILit _ _ => True
  | IGlobal r a v => lookup F (s_txt a) = Some v
  | IParam r a v => leaf_fit F H N (s_txt a) E
  | ISub r a A => leaf_fit F H N (s_txt a) E /\ fit F H N A
  | IList l | IPick _ l _ _ | IText l _ _ => all l
  | ICond c a b => fit F H N c /\ fit F H N a /\ fit F H N b
  | ICall f l _ _ => lookup F (s_txt f) = None /\ all l
  | IShow E _ _ => fit F H N E
  | IInfix _ _ ns ks l _ _ => (clean H E -> infix_frame F ns = map (fun k => (k, NVar (RList []) (raw k))) ks) /\
      map itree l = map (fun k => NVar (RList []) (raw k)) ks /\ all l
  | IUse f ps own l B _ _ => all l /\
      (exists b dflt, lookup F (s_txt f) = Some (NLClosure b (fresh_frame ps) [] dflt) /\
         forall H0, (forall p, In p ps -> ~ H0 p) -> ires H0 true B b) /\
      (forall fr, partly N ps l fr -> fit (fr :: F) (inside N ps) (inside N ps) B) /\
      (forall fr, partly N ps l fr -> opens fr = [] -> fit (fr :: F) (inside N ps) (after N ps own) B) /\
      fit F (with_names H own) (with_names N own) B
  end.
Fixpoint full (F : env) (H N : text -> Prop) (E : iexp) {struct E} : Prop :=
  let all := fix all l := match l with [] => True | E :: l => full F H N E /\ all l end in
  match E with
  | IValue _ | ILit _ _ | IGlobal _ _ _ => True
  | IParam r a v => ~ H (s_txt a) -> lookup F (s_txt a) = Some v
  | ISub r a A => (~ H (s_txt a) -> exists v, lookup F (s_txt a) = Some v /\ imean A v) /\ full F H N A
  | IList l | IPick _ l _ _ | IText l _ _ | ICall _ l _ _ | IInfix _ _ _ _ l _ _ => all l
  | ICond c a b => full F H N c /\ full F H N a /\ full F H N b
  | IShow E _ _ => full F H N E
  | IUse f ps own l B _ _ => all l /\ (forall fr, partly N ps l fr -> filled ps l fr -> full (fr :: F) (inside N ps) (after N ps own) B) /\
      full F (with_names H own) (with_names N own) B
  end.
Definition fits F H N := fix all l := match l with [] => True | E :: l => fit F H N E /\ all l end.
Definition fulls F H N := fix all l := match l with [] => True | E :: l => full F H N E /\ all l end.
Lemma fits_spec F H N l : fits F H N l <-> Forall (fit F H N) l.
Proof. induction l as [|E l IH]; cbn [fits]; split; intros K; try constructor; try apply K; try apply IH; try apply K; inversion K; subst; tauto. Qed.
Lemma fulls_spec F H N l : fulls F H N l <-> Forall (full F H N) l.
Proof. induction l as [|E l IH]; cbn [fulls]; split; intros K; try constructor; try apply K; try apply IH; try apply K; inversion K; subst; tauto. Qed.
Lemma full_again F E : forall (H N : text -> Prop), (forall a, H a -> N a) -> full F H N E -> full F N N E.
Proof.
  induction E using iexp_nest; intros H' N Hs; cbn [full]; try tauto;
    try (intros K; apply fulls_spec; apply fulls_spec in K; eapply Forall_impl2; [|exact K]; eapply Forall_impl; [|exact H]; cbn beta; eauto; fail).
  - intros K Hn. apply K. intros Ha. apply Hn, Hs, Ha.
  - intros [K1 K2]. split; [|eauto]. intros Hn. apply K1. intros Ha. apply Hn, Hs, Ha.
  - intros (K1 & K2 & K3). repeat split; eauto.
  - eauto.
  - intros (K & K1 & K4). split; [|split; [exact K1|]].
    + apply fulls_spec; apply fulls_spec in K; eapply Forall_impl2; [|exact K]; eapply Forall_impl; [|exact H]; cbn beta; eauto.
    + eapply IHE; [|exact K4]. intros a0 [Ha|Ha]; [left; auto|right; exact Ha].
Qed.
(** once more *)
Lemma fit_again F E : forall (H N : text -> Prop), (forall a, H a -> N a) -> fit F H N E -> fit F N N E.
Proof.
  assert (L : forall a E (H N : text -> Prop), (forall a, H a -> N a) -> leaf_fit F H N a E -> leaf_fit F N N a E).
  { intros a E0 H N Hs K Hn. apply K. intros Ha. apply Hn, Hs, Ha. }
  induction E using iexp_nest; intros H' N Hs; cbn [fit]; try tauto; try (apply L, Hs);
    try (intros K; apply fits_spec; apply fits_spec in K; eapply Forall_impl2; [|exact K]; eapply Forall_impl; [|exact H]; cbn beta; eauto; fail).
  - intros [K1 K2]. split; [eapply L; eassumption|eauto].
  - intros (K1 & K2 & K3). repeat split; eauto.
  - intros [K1 K]. split; [exact K1|]. apply fits_spec; apply fits_spec in K; eapply Forall_impl2; [|exact K]; eapply Forall_impl; [|exact H]; cbn beta; eauto.
  - eauto.
  - intros (K1 & K2 & K). split; [|split; [exact K2|]].
    + intros Hc. apply K1. eapply clean_less; [exact Hs|exact Hc].
    + apply fits_spec; apply fits_spec in K; eapply Forall_impl2; [|exact K]; eapply Forall_impl; [|exact H]; cbn beta; eauto.
  - intros (K & K1 & K2 & K3 & K4). repeat (split; [assumption || (apply fits_spec; apply fits_spec in K; eapply Forall_impl2; [|exact K]; eapply Forall_impl; [|exact H]; cbn beta; eauto)|]).
    eapply IHE; [|exact K4]. intros a0 [Ha|Ha]; [left; auto|right; exact Ha].
Qed.

(** from the names [H] to the names [N] *)
Definition move (H N : text -> Prop) (o o' : bool) (E : iexp) : Prop :=
  (forall a, H a -> N a) /\ ((forall a, N a -> H a) \/ o = true) /\ (o' = true -> o = true \/ flat E).
Lemma move_sub H N o o' E E' : move H N o o' E -> (flat E -> flat E') -> move H N o o' E'.
Proof. intros (H1 & H2 & H3) H4. split; [exact H1|]. split; [exact H2|]. intros Ho. destruct (H3 Ho); auto. Qed.
Lemma move_all H N o o' E l : move H N o o' E -> (flat E -> flatl l) -> Forall (move H N o o') l.
Proof.
  intros K1 K2. apply Forall_forall. intros E' HE. eapply move_sub; [exact K1|]. intros Hf. apply K2, flatl_spec in Hf. eapply Forall_forall; eassumption.
Qed.
Lemma move_clean H N o o' E E' : move H N o o' E -> o <> true -> clean H E' -> clean N E'.
Proof. intros (_ & [K|K] & _) Ho; [apply clean_less, K|contradiction]. Qed.
Definition steps (E : iexp) : Prop := forall F (H N : text -> Prop) (o o' : bool) v x, move H N o o' E ->
  imean E v -> ires H o E x -> fit F H N E -> exists y, evs x F s y F s /\ ires N o' E y /\ (full F H N E -> y = v).
Lemma steps_list F (H N : text -> Prop) o o' l : Forall steps l -> forall vs xs, Forall (move H N o o') l -> Forall2 imean l vs -> Forall2 (ires H o) l xs -> Forall (fit F H N) l ->
  exists ys, evs (NList xs) F s (NList ys) F s /\ Forall2 (ires N o') l ys /\ (Forall (full F H N) l -> ys = vs).
Proof.
  intros Hl vs xs H0 H1 H2 H3.
  assert (K : exists ys, list_evals ec parse xs F s ys F s /\ Forall2 (ires N o') l ys /\ (Forall (full F H N) l -> ys = vs)).
  { revert vs xs H0 H1 H2 H3. induction Hl as [|E l HE _ IH]; intros vs xs H0 H1 H2 H3; inversion H1 as [|E1 v l1 vs' M1 M2]; inversion H2 as [|E2 x l2 xs' R1 R2];
      inversion H3 as [|E3 l3 G1 G2]; inversion H0 as [|E4 l4 V1 V2]; subst.
    - exists []. repeat split; constructor.
    - destruct (HE F H N o o' v x V1 M1 R1 G1) as (z & Hy1 & Hy2 & Hy3). pose proof (ires_shape _ _ _ _ _ M1 Hy2) as Hsh.
      destruct (IH vs' xs' V2 M2 R2 G2) as (ys & Hys1 & Hys2 & Hys3).
      destruct (contributes_one z (shape_one z Hsh)) as [Hc Hn]. exists (z :: ys). split; [|split].
      + change (z :: ys) with ([z] ++ ys). eapply LE_cons; [exact Hy1|exact Hc|]. rewrite Hn. exact Hys1.
      + constructor; assumption.
      + intros Hfull. inversion Hfull; subst. f_equal; auto. }
  destruct K as (ys & H4 & H5 & H6). exists ys. split; [apply list_spec; eauto|auto].
Qed.
Lemma istep_data F v : data v -> evs v F s v F s.
Proof. intros H. apply (data_steady ec parse v H). Qed.
Lemma steps_mean F H N o E v x : imean E v -> imean E x -> exists y, evs x F s y F s /\ ires N o E y /\ (full F H N E -> y = v).
Proof.
  intros H1 H2. exists x. split; [apply istep_data; eapply imean_data; exact H2|]. split; [apply ires_mean, H2|]. intros _. eapply imean_det; eassumption.
Qed.
Lemma var_step F r a w : lookup F (s_txt a) = Some w -> evs (NVar r a) F s (match w with NBound => NVar r a | _ => w end) F s.
Proof. intros H. exists 1%nat. cbn [yueval eval_body]. unfold eval_var, ebind, get_env. rewrite H. destruct w; reflexivity. Qed.
Lemma ires_unbound N o E v w : imean E v -> ires N o E w -> w <> NBound.
Proof. intros H1 H2 ->. exact (ires_shape _ _ _ _ _ H1 H2). Qed.
Lemma steps_global r a v0 : steps (IGlobal r a v0).
Proof.
  intros F H N o o' v x Hm Hw Hx Hg. inversion Hw; subst. destruct Hx as [(-> & _)|[Hx|[]]]; [|eapply steps_mean; eassumption].
  exists v. split; [|split; [apply ires_mean, Hw|reflexivity]]. cbn [itree fit] in *. pose proof (var_step F r a v Hg) as K.
  destruct v; try exact K. match goal with K : data NBound |- _ => inversion K end.
Qed.
Lemma steps_param r a v0 : steps (IParam r a v0).
Proof.
  intros F H N o o' v x Hm Hw Hx Hg. inversion Hw; subst.
  assert (Go : forall r' a', s_txt a' = s_txt a -> ~ H (s_txt a) -> exists y, evs (NVar r' a') F s y F s /\ ires N o' (IParam r a v) y /\ (full F H N (IParam r a v) -> y = v)).
  { intros r' a' Ea Hn. destruct (Hg Hn) as (w & Hk & Hw'). rewrite <- Ea in Hk. pose proof (var_step F r' a' w Hk) as K. eexists. split; [exact K|].
    destruct Hw' as [[-> Hnn]|Hr].
    - split; [right; right; exists r', a'; auto|]. cbn [full]. rewrite <- Ea, Hk. intros E. rewrite Ea in E. specialize (E Hn). injection E as <-. match goal with H : data NBound |- _ => inversion H end.
    - assert (Hu : w <> NBound) by (eapply ires_unbound; [exact Hw|exact Hr]).
      replace (match w with NBound => NVar r' a' | _ => w end) with w by (destruct w; congruence).
      split; [apply (ires_less _ N N true o'); auto|]. cbn [full]. rewrite <- Ea, Hk. intros E. rewrite Ea in E. specialize (E Hn). injection E as E. exact E. }
  destruct Hx as [(-> & Hn & _)|[Hx|(r' & a' & -> & Ea & Hn)]]; [|eapply steps_mean; eassumption|].
  - apply Go; [reflexivity|exact Hn].
  - apply Go; assumption.
Qed.
Lemma steps_sub r a A : steps A -> steps (ISub r a A).
Proof.
  intros SA F H N o o' v x Hm Hw Hx [Hg GA]. inversion Hw as [| | |? ? ? ? FA MA| | | | | | | | |]; subst.
  assert (Hth : forall y, ires N true A y -> ires N o' (ISub r a A) y) by (intros y Hy; right; right; right; exact Hy).
  assert (Go : forall r' a', s_txt a' = s_txt a -> ~ H (s_txt a) -> exists y, evs (NVar r' a') F s y F s /\ ires N o' (ISub r a A) y /\ (full F H N (ISub r a A) -> y = v)).
  { intros r' a' Ea Hn. destruct (Hg Hn) as (w & Hk & Hw'). rewrite <- Ea in Hk. pose proof (var_step F r' a' w Hk) as K. eexists. split; [exact K|].
    destruct Hw' as [[-> Hnn]|Hr].
    - split; [right; right; left; exists r', a'; auto|]. cbn [full]. rewrite <- Ea, Hk. rewrite Ea. intros [E _]. destruct (E Hn) as (u & E' & Hu). injection E' as <-. exfalso.
      eapply (ires_unbound N true); [exact Hu|apply ires_mean; exact Hu|reflexivity].
    - assert (Hu : w <> NBound) by (eapply ires_unbound; [exact Hw|exact Hr]).
      replace (match w with NBound => NVar r' a' | _ => w end) with w by (destruct w; congruence).
      split; [apply (ires_less _ N N true o'); auto|]. cbn [full]. rewrite <- Ea, Hk. rewrite Ea. intros [E _]. destruct (E Hn) as (u & E' & Hu'). injection E' as ->. eapply imean_det; eassumption. }
  destruct Hx as [(-> & Hn & _)|[Hx|[(r' & a' & -> & Ea & Hn)|Hx]]]; [|eapply steps_mean; eassumption| |].
  - apply Go; [reflexivity|exact Hn].
  - apply Go; assumption.
  - destruct (SA F H N true true v x) as (y & K1 & K2 & K3); [|exact MA|exact Hx|exact GA|].
    { destruct Hm as (V1 & V2 & V3). split; [exact V1|]. split; auto. }
    exists y. split; [exact K1|]. split; [apply Hth, K2|]. intros [_ Hf]. auto.
Qed.
Lemma steps_IList l : Forall steps l -> steps (IList l).
Proof.
  intros Hl F H N o o' v x Hm Hw Hx Hg. apply ires_list_inv in Hx as (xs & -> & Hx). apply imean_list_inv in Hw as (vs & -> & Hw).
  cbn [fit] in Hg. apply fits_spec in Hg.
  destruct (steps_list F H N o o' l Hl vs xs (move_all _ _ _ _ _ l Hm (fun K => K)) Hw Hx Hg) as (ys & H1 & H2 & H3). exists (NList ys). split; [exact H1|]. split.
  - right. right. exists ys. split; [reflexivity|]. apply ires2_spec, H2.
  - intros Hfull. cbn [full] in Hfull. apply fulls_spec in Hfull. rewrite (H3 Hfull). reflexivity.
Qed.
Lemma steps_cond c a b : steps c -> steps a -> steps b -> steps (ICond c a b).
Proof.
  intros Sc Sa Sb F H N o o' v x Hm Hw Hx (Gc & Ga & Gb). inversion Hw as [| | | | |? ? ? vc va vb vv Mc Ma Mb Ms| | | | | | |]; subst; csel.
  assert (Vc : move H N o o' c) by (eapply move_sub; [exact Hm|intros K; apply K]).
  assert (Va : move H N o o' a) by (eapply move_sub; [exact Hm|intros (_ & K & _); apply nocond_flat, K]).
  assert (Vb : move H N o o' b) by (eapply move_sub; [exact Hm|intros (_ & _ & K); apply nocond_flat, K]).
  assert (Vab : move H N o o' (if truthy vc then a else b)) by (destruct (truthy vc); assumption).
  assert (Vnn : forall E, move N N o' o' E) by (intros E; split; [auto|split; [left; auto|auto]]).
  assert (Sab : steps (if truthy vc then a else b)) by (destruct (truthy vc); assumption).
  assert (Gab : fit F H N (if truthy vc then a else b)) by (destruct (truthy vc); assumption).
  assert (Mab : imean (if truthy vc then a else b) (if truthy vc then va else vb)) by (destruct (truthy vc); assumption).
  assert (Fab : full F H N (ICond c a b) -> full F H N (if truthy vc then a else b)) by (intros (_ & Fa & Fb); destruct (truthy vc); assumption).
  assert (Fc : full F H N (ICond c a b) -> full F H N c) by (intros (Fc & _); exact Fc).
  assert (Fag : full F H N (if truthy vc then a else b) -> full F N N (if truthy vc then a else b)) by (apply full_again, Hm).
  assert (Hch : forall y, ires N o' (if truthy vc then a else b) y -> ires N o' (ICond c a b) y).
  { intros y Hy. right. right. right. exists vc. auto. }
  destruct Hx as [(-> & (Kc & Ka & Kb) & Hno)|[Hx|[(xc & xa & xb & -> & Hc & Ha & Hb)|(vc' & Hc & Hx)]]]; [|eapply steps_mean; eassumption| |].
  - assert (Ho : o <> true) by (intros Ho; exact (Hno Ho)).
    assert (Tr : forall E, clean H E -> ires H o E (itree E)) by (intros E K; apply ires_tree; [exact K|congruence]).
    destruct (Sc F H N o o' vc _ Vc Mc (Tr c Kc) Gc) as (yc & H1 & H2 & H3).
    destruct (is_term yc) eqn:Et.
    + assert (yc = vc) by (eapply ires_term; eassumption). subst yc.
      destruct (Sab F H N o o' _ (itree (if truthy vc then a else b)) Vab Mab) as (y & H4 & H5 & H6); [apply Tr; destruct (truthy vc); assumption|exact Gab|]. exists y. split; [|auto].
      apply evs_big in H1 as (N1 & H1). apply evs_big in H4 as (N2 & H4). exists (S (N1 + N2)).
      cbn [yueval eval_body itree]. unfold ebind. rewrite H1 by lia. rewrite Et.
      replace (if truthy vc then itree a else itree b) with (itree (if truthy vc then a else b)) by (destruct (truthy vc); reflexivity).
      apply H4. lia.
    + exists (NCondClosure yc (itree a) (itree b)). split; [|split].
      * apply evs_big in H1 as (N1 & H1). exists (S N1). cbn [yueval eval_body itree]. unfold ebind. rewrite H1 by lia. rewrite Et. reflexivity.
      * right. right. left. exists yc, (itree a), (itree b). split; [reflexivity|]. split; [exact H2|].
        split; (apply ires_tree; [eapply move_clean; eassumption|]); intros Ho'; destruct Hm as (_ & _ & Hm); destruct (Hm Ho') as [K|(_ & K1 & K2)]; congruence || assumption.
      * intros Hfull. exfalso. rewrite (H3 (Fc Hfull)), (data_term vc (imean_data _ _ Mc)) in Et. discriminate Et.
  - destruct (Sc F H N o o' vc _ Vc Mc Hc Gc) as (yc & H1 & H2 & H3).
    destruct (is_term yc) eqn:Et.
    + assert (yc = vc) by (eapply ires_term; eassumption). subst yc.
      assert (Hab : ires H o (if truthy vc then a else b) (if truthy vc then xa else xb)) by (destruct (truthy vc); assumption).
      destruct (Sab F H N o o' _ _ Vab Mab Hab Gab) as (y & H4 & H5 & H6).
      destruct (Sab F N N o' o' _ _ (Vnn _) Mab H5) as (z & H7 & H8 & H9); [apply (fit_again F _ H); [apply Hm|exact Gab]|]. exists z. split; [|auto].
      apply evs_big in H1 as (N1 & H1). apply evs_big in H4 as (N2 & H4). apply evs_big in H7 as (N3 & H7). exists (S (N1 + N2 + N3)).
      cbn [yueval eval_body]. unfold ebind. rewrite H1 by lia. rewrite Et. rewrite H4 by lia. apply H7. lia.
    + destruct (Sa F H N o o' _ _ Va Ma Ha Ga) as (ya & A1 & A2 & _). destruct (Sb F H N o o' _ _ Vb Mb Hb Gb) as (yb & B1 & B2 & _).
      exists (NCondClosure yc ya yb). split; [|split].
      * apply evs_big in H1 as (N1 & H1). apply evs_big in A1 as (N2 & A1). apply evs_big in B1 as (N3 & B1). exists (S (N1 + N2 + N3)).
        cbn [yueval eval_body]. unfold ebind. rewrite H1 by lia. rewrite Et. rewrite A1 by lia. rewrite B1 by lia. reflexivity.
      * right. right. left. exists yc, ya, yb. auto.
      * intros Hfull. exfalso. rewrite (H3 (Fc Hfull)), (data_term vc (imean_data _ _ Mc)) in Et. discriminate Et.
  - assert (vc' = vc) by (eapply imean_det; eassumption). subst vc'.
    destruct (Sab F H N o o' _ _ Vab Mab Hx Gab) as (y & H4 & H5 & H6). exists y. auto.
Qed.
Lemma steps_ICall g l file pos : Forall steps l -> steps (ICall g l file pos).
Proof.
  intros Hl F H N o o' v x Hm Hw Hx [Hf2 Hg]. apply fits_spec in Hg. inversion Hw as [| | | | | |? ? ? ? vs ? Hvs Hfn Hd| | | | | |]; subst.
  assert (Go : forall fn xs, evs fn F s (NBuiltin g) F s -> Forall2 (ires H o) l xs ->
    exists y, evs (NApply fn xs [] file pos) F s y F s /\ ires N o' (ICall g l file pos) y /\ (full F H N (ICall g l file pos) -> y = v)).
  { intros fn xs Hf Hxs. destruct (steps_list F H N o o' l Hl vs xs (move_all _ _ _ _ _ l Hm (fun K => K)) Hvs Hxs Hg) as (ys & H1 & H2 & H3).
    destruct Hfn as (h & w & Hh & Hr & ->).
    destruct (is_term (NList ys)) eqn:Et.
    - assert (ys = vs) by (eapply ires_terms; eassumption). subst ys. exists (builtin_result w). split; [|split; [apply ires_mean, Hw|reflexivity]].
      apply evals_fin. apply (apply_fin ec parse fn xs [] file pos F s _ F s _ F s _ Hf H1). split; [discriminate|]. exists O.
      unfold apply_rest. cbn [as_closure named_unexpected]. unfold apply_builtin, find_builtin, ebind, lift_m, bind, get_st, ret. rewrite Hh.
      unfold apply_function. rewrite Et. unfold ebind, lift_m. rewrite Hr. reflexivity.
    - exists (NApply (NBuiltin g) ys [] file pos). split; [|split].
      + apply evals_fin. apply (apply_fin ec parse fn xs [] file pos F s _ F s _ F s _ Hf H1). split; [discriminate|]. exists O.
        unfold apply_rest. cbn [as_closure named_unexpected]. unfold apply_builtin, find_builtin, ebind, lift_m, bind, get_st, ret. rewrite Hh.
        unfold apply_function. rewrite Et. replace (detect_deadlock (NList ys)) with false; [reflexivity|].
        symmetry. apply (ires_alive (IList l) N o' (NList vs)); [constructor; exact Hvs|]. right. right. exists ys. split; [reflexivity|]. apply ires2_spec, H2.
      + right. right. exists ys. split; [reflexivity|]. apply ires2_spec, H2.
      + intros Hfull. exfalso. cbn [full] in Hfull. apply fulls_spec in Hfull. rewrite (H3 Hfull) in Et. rewrite (data_term (NList vs)) in Et; [discriminate Et|]. constructor. eapply imean_list_data, Hvs. }
  destruct Hx as [(-> & Kc & Kn)|[Hx|(xs & -> & Hx)]]; [|eapply steps_mean; eassumption|].
  - apply Go; [|apply ires_trees; [apply cleanl_spec, Kc|intros Ho; apply nocondl_spec, (Kn Ho)]]. destruct Hfn as (h & w & Hh & _). exists 1%nat. cbn [yueval eval_body]. unfold eval_var, ebind, get_env.
    rewrite Hf2. unfold find_builtin, lift_m, bind, get_st, ret. rewrite Hh. reflexivity.
  - apply Go; [|apply ires2_spec, Hx]. exists 1%nat. reflexivity.
Qed.
Lemma steps_IPick z l file pos : Forall steps l -> steps (IPick z l file pos).
Proof.
  intros Hl F H N o o' v x Hm Hw Hx Hg. cbn [fit] in Hg. apply fits_spec in Hg. inversion Hw as [| | | | | | |? ? ? ? vs m ? Hvs Hi He Hd| | | | |]; subst.
  assert (Go : forall xs, Forall2 (ires H o) l xs ->
    exists y, evs (NApply (NInt z) xs [] file pos) F s y F s /\ ires N o' (IPick z l file pos) y /\ (full F H N (IPick z l file pos) -> y = v)).
  { intros xs Hxs. destruct (steps_list F H N o o' l Hl vs xs (move_all _ _ _ _ _ l Hm (fun K => K)) Hvs Hxs Hg) as (ys & H1 & H2 & H3).
    assert (Hz : evs (NInt z) F s (NInt z) F s) by (exists 1%nat; reflexivity).
    destruct (is_term (NList ys)) eqn:Et.
    - assert (ys = vs) by (eapply ires_terms; eassumption). subst ys. exists v. split; [|split; [apply ires_mean, Hw|reflexivity]].
      eapply subscript_selects; eassumption.
    - exists (NApply (NInt z) ys [] file pos). split; [|split].
      + apply evals_fin. apply (apply_fin ec parse _ xs [] file pos F s _ F s _ F s _ Hz H1). split; [discriminate|]. exists O.
        unfold apply_rest. cbn [as_closure named_unexpected]. unfold apply_number. rewrite Et. destruct ys; [discriminate Et|reflexivity].
      + right. right. exists ys. split; [reflexivity|]. apply ires2_spec, H2.
      + intros Hfull. exfalso. cbn [full] in Hfull. apply fulls_spec in Hfull. rewrite (H3 Hfull) in Et. rewrite (data_term (NList vs)) in Et; [discriminate Et|]. constructor. eapply imean_list_data, Hvs. }
  destruct Hx as [(-> & Kc & Kn)|[Hx|(xs & -> & Hx)]]; [|eapply steps_mean; eassumption|].
  - apply Go, ires_trees; [apply cleanl_spec, Kc|intros Ho; apply nocondl_spec, (Kn Ho)].
  - apply Go, ires2_spec, Hx.
Qed.
Lemma steps_IShow E file pos : steps E -> steps (IShow E file pos).
Proof.
  intros SE F H N o o' v x Hm Hw Hx Hg. cbn [fit] in Hg. pose proof (move_sub _ _ _ _ _ E Hm (fun K => K)) as Vm. assert (Vnn : move N N o' o' E) by (split; [auto|split; [left; auto|auto]]). inversion Hw as [| | | | | | | |? ? ? ? u ME Hu| | | |]; subst.
  assert (Hth : forall y, ires N o' E y -> ires N o' (IShow E file pos) y) by (intros y Hy; right; right; right; exact Hy).
  assert (Go : forall x, ires H o E x -> exists y, evs (NApply x [] [] file pos) F s y F s /\ ires N o' (IShow E file pos) y /\ (full F H N (IShow E file pos) -> y = v)).
  { intros z Hz. destruct (SE F H N o o' v z Vm ME Hz Hg) as (y & H1 & H2 & H3).
    assert (Hkeep : is_term y = false -> gives_r (fun n => apply_rest ec parse n (call_of z) [] file pos y []) F s (Ok (NApply y [] [] file pos, F, s)) ->
      exists y, evs (NApply z [] [] file pos) F s y F s /\ ires N o' (IShow E file pos) y /\ (full F H N (IShow E file pos) -> y = v)).
    { intros Et Hr. exists (NApply y [] [] file pos). split; [|split].
      - apply evals_fin. apply (apply_fin ec parse z [] [] file pos F s _ F s _ F s _ H1 (list_nil ec parse F s)). exact Hr.
      - right. right. left. exists y. auto.
      - intros Hfull. exfalso. rewrite (H3 Hfull), (value_text_term _ _ Hu) in Et. discriminate Et. }
    assert (Hval : is_term y = true -> exists y, evs (NApply z [] [] file pos) F s y F s /\ ires N o' (IShow E file pos) y /\ (full F H N (IShow E file pos) -> y = v)).
    { intros Et. assert (y = v) by (eapply ires_term; eassumption). subst y. exists v. split; [|split; [apply ires_mean, Hw|reflexivity]].
      apply apply_value; [exists u; exact Hu|exact H1]. }
    assert (Hagain : (forall n, apply_rest ec parse n (call_of z) [] file pos y [] = ev n y) ->
      exists y, evs (NApply z [] [] file pos) F s y F s /\ ires N o' (IShow E file pos) y /\ (full F H N (IShow E file pos) -> y = v)).
    { intros Hr. destruct (SE F N N o' o' v y Vnn ME H2 (fit_again F E H N (proj1 Hm) Hg)) as (y2 & H4 & H5 & H6). exists y2.
      split; [|split; [right; right; right; exact H5|intros Hfull; apply H6, (full_again F E H); [apply Hm|exact Hfull]]].
      apply evals_fin. apply (apply_fin ec parse z [] [] file pos F s _ F s _ F s _ H1 (list_nil ec parse F s)).
      apply evals_fin in H4. destruct H4 as [H4 [n Hn]]. split; [exact H4|]. exists n. rewrite Hr. exact Hn. }
    pose proof (ires_shape E N o' v y ME H2) as Hsh.
    destruct y; try contradiction Hsh; try (apply Hval; reflexivity); try (apply Hagain; reflexivity);
      try (apply Hkeep; [reflexivity|]; split; [discriminate|]; exists O; reflexivity).
    destruct (ires_not_list E N o' v l ME H2) as (vs & ->). inversion Hu. }
  destruct Hx as [(-> & Kc & Kn)|[Hx|[(y & -> & Hy)|Hx]]]; [|eapply steps_mean; eassumption| |].
  - apply Go, ires_tree; [exact Kc|exact Kn].
  - apply Go, Hy.
  - destruct (SE F H N o o' v x Vm ME Hx Hg) as (y & H1 & H2 & H3). exists y. auto.
Qed.

(** formulas *)
Lemma names_nocond l ks : map itree l = map (fun k => NVar (RList []) (raw k)) ks -> Forall nocond l.
Proof.
  revert ks. induction l as [|E l IH]; intros [|k ks] K; try discriminate K; constructor.
  - injection K as K _. destruct E; try discriminate K; exact Logic.I.
  - apply (IH ks). injection K as _ K. exact K.
Qed.
Lemma local_steps F (H N : text -> Prop) o o' l : Forall steps l -> forall ks vs xs, List.length ks = List.length l -> Forall (move H N o o') l -> Forall2 imean l vs -> Forall2 (ires H o) l xs -> Forall (fit F H N) l ->
  exists ys b W, (forall n, (W <= n)%nat -> eval_local (ev n) (combine ks xs) F s = Ok (combine ks ys, b, F, s)) /\ Forall2 (ires N o') l ys /\
    (b = true -> ys = vs) /\ (Forall (full F H N) l -> b = true).
Proof.
  induction 1 as [|E l HE _ IH]; intros ks vs xs Hk H0 H1 H2 H3; inversion H0 as [|E4 l4 V1 V2]; inversion H1 as [|E1 v l1 vs' M1 M2]; inversion H2 as [|E2 x l2 xs' R1 R2]; inversion H3 as [|E3 l3 G1 G2]; subst.
  - exists [], true, O. destruct ks; [|discriminate Hk]. repeat split; auto.
  - destruct ks as [|k ks]; [discriminate Hk|]. injection Hk as Hk. destruct (IH ks vs' xs' Hk V2 M2 R2 G2) as (ys & b & N1 & Y1 & Y2 & Y3 & Y4).
    destruct (HE F H N o o' v x V1 M1 R1 G1) as (y & Z1 & Z2 & Z3). apply evs_big in Z1 as (N2 & Z1).
    exists (y :: ys), (is_term y && b), (N1 + N2)%nat. split; [|split; [constructor; assumption|split]].
    + intros i Hi. cbn [combine eval_local]. unfold ebind. rewrite Z1, Y1 by lia. reflexivity.
    + intros Hb. apply andb_true_iff in Hb as [Hb1 Hb2]. rewrite (Y3 Hb2). f_equal. eapply ires_term; eassumption.
    + intros Hfull. inversion Hfull as [|? ? F1 F2]; subst. rewrite (Z3 F1), (data_term v (imean_data _ _ M1)), (Y4 F2). reflexivity.
Qed.
Lemma combine_open (ks : list text) : map (fun k => (k, NVar (RList []) (raw k))) ks = combine ks (map (fun k => NVar (RList []) (raw k)) ks).
Proof. induction ks as [|k ks IH]; [reflexivity|]. cbn [map combine]. rewrite IH. reflexivity. Qed.
Lemma steps_IInfix ast t ns ks l file pos : Forall steps l -> steps (IInfix ast t ns ks l file pos).
Proof.
  intros Hl F H N o o' v x Hm Hw Hx (G1 & G2 & G3). apply fits_spec in G3. inversion Hw as [| | | | | | | | |? ? ? ? ? ? ? ws w Ht Hns Hk Hvs Hi Hd| | |]; subst.
  assert (Go : forall xs, Forall2 (ires H o) l xs ->
    exists y, evs (NInfixClosure t (combine ks xs) file pos) F s y F s /\ ires N o' (IInfix ast t ns ks l file pos) y /\ (full F H N (IInfix ast t ns ks l file pos) -> y = const_result w)).
  { intros xs Hxs. destruct (local_steps F H N o o' l Hl ks ws xs Hk) as (ys & b & W & H1 & H2 & H3 & H4); [|exact Hvs|exact Hxs|exact G3|].
    { apply Forall_forall. intros E' HE. eapply move_sub; [exact Hm|]. intros _. apply nocond_flat. eapply Forall_forall; [exact (names_nocond _ _ G2)|exact HE]. }
    
    destruct b.
    - rewrite (H3 eq_refl) in H1. exists (const_result w). split; [|split; [apply ires_mean, Hw|reflexivity]].
      exists (S W). cbn [yueval eval_body]. unfold ebind at 1. rewrite H1 by lia. unfold lift_r, lift_m, lift, ebind. rewrite Hi. reflexivity.
    - exists (NInfixClosure t (combine ks ys) file pos). split; [|split].
      + exists (S W). cbn [yueval eval_body]. unfold ebind at 1. rewrite H1 by lia. reflexivity.
      + right. right. exists ys. split; [reflexivity|apply ires2_spec, H2].
      + intros Hfull. cbn [full] in Hfull. apply fulls_spec in Hfull. specialize (H4 Hfull). discriminate H4. }
  destruct Hx as [(-> & Kc & Kn)|[Hx|(xs & -> & Hx)]]; [|eapply steps_mean; eassumption|].
  - destruct (Go (map itree l)) as (y & H1 & H2 & H3); [apply ires_trees; [apply cleanl_spec, Kc|intros _; exact (names_nocond _ _ G2)]|].
    exists y. split; [|auto]. destruct (Ht F s) as (z & Hz & Ez).
    apply evs_big in Hz as (N1 & Hz). apply evs_big in H1 as (N2 & H1). exists (S (N1 + N2)). cbn [itree yueval eval_body].
    unfold ebind at 1. rewrite Hz by lia. rewrite Ez. unfold lift_r, lift_m, lift, ebind. rewrite Hns. unfold get_env.
    rewrite (G1 Kc), combine_open, <- G2. apply H1. lia.
  - apply Go, ires2_spec, Hx.
Qed.

(** texts *)
Lemma text_first F (H N : text -> Prop) o o' l : Forall steps l -> forall vs, Forall (move H N o o') l -> Forall2 imean l vs -> Forall (clean H) l -> (o = true -> Forall nocond l) -> Forall (fit F H N) l -> forall ind,
  exists ys, block ec parse ind (map itree l) F s (pieces ind (map itree l) ys) F s /\ Forall2 (ires N o') l ys /\ (Forall (full F H N) l -> ys = vs).
Proof.
  induction 1 as [|E l HE _ IH]; intros vs H0 Hm Hcl Hno Hg ind; inversion H0 as [|E4 l4 V1 V2]; inversion Hcl as [|E5 l5 C1 C2]; inversion Hm as [|E1 v l1 vs' M1 M2]; inversion Hg as [|E3 l3 G1 G2]; subst.
  - exists []. repeat split; constructor.
  - destruct (HE F H N o o' v (itree E) V1 M1) as (y & H1 & H2 & H3); [apply ires_tree; [exact C1|intros Ho; specialize (Hno Ho); inversion Hno; assumption]|exact G1|]. pose proof (ires_shape E _ _ _ _ M1 H2) as Sy. pose proof (itree_shape E _ M1) as St.
    destruct (IH vs' V2 M2 C2) with (ind := indent_then ind (itree E)) as (ys & H4 & H5 & H6); [intros Ho; specialize (Hno Ho); inversion Hno; assumption|exact G2|]. exists (y :: ys).
    split; [|split; [constructor; assumption|intros Hfull; inversion Hfull; subst; f_equal; auto]].
    cbn [map pieces].
    assert (Ep : (if is_apply (itree E) then NTrim y (ind_text ind) :: pieces IndFalse (map itree l) ys else y :: pieces (indent_then ind (itree E)) (map itree l) ys) =
      as_applied ind (itree E) y :: pieces (indent_then ind (itree E)) (map itree l) ys).
    { rewrite as_applied_is. destruct (itree E); reflexivity. }
    rewrite Ep. eapply BL_value; [apply shape_comment, St|exact H1|apply shape_piece, Sy|exact H4].
Qed.
Lemma text_again F (H N : text -> Prop) o o' l : Forall steps l -> Forall (fun E => ~ floppy E) l -> forall vs xs, Forall (move H N o o') l -> Forall2 imean l vs -> Forall2 (ires H o) l xs -> Forall (fit F H N) l -> forall ind ind',
  exists ys, block ec parse ind' (pieces ind (map itree l) xs) F s (pieces ind (map itree l) ys) F s /\ Forall2 (ires N o') l ys /\ (Forall (full F H N) l -> ys = vs).
Proof.
  induction 1 as [|E l HE _ IH]; intros Hc vs xs H0 Hm Hr Hg ind ind'; inversion H0 as [|E5 l5 V1 V2]; inversion Hr as [|E1 x l1 xs' R1 R2]; inversion Hm as [|E2 v l2 vs' M1 M2]; inversion Hc as [|E3 l3 C1 C2]; inversion Hg as [|E4 l4 G1 G2]; subst.
  - exists []. repeat split; constructor.
  - destruct (HE F H N o o' v x V1 M1 R1 G1) as (y & H1 & H2 & H3). pose proof (ires_shape E _ _ _ _ M1 H2) as Sy. pose proof (ires_shape E _ _ _ _ M1 R1) as Sx.
    cbn [map pieces]. destruct (is_apply (itree E)) eqn:Ea.
    + destruct (IH C2 vs' xs' V2 M2 R2 G2 IndFalse (indent_then ind' (NTrim x (ind_text ind)))) as (ys & H4 & H5 & H6).
      exists (y :: ys). split; [|split; [constructor; assumption|intros Hfull; inversion Hfull; subst; f_equal; auto]]. cbn [pieces]; rewrite ?Ea.
      change (NTrim y (ind_text ind)) with (as_applied ind' (NTrim x (ind_text ind)) (NTrim y (ind_text ind))).
      eapply BL_value; [discriminate| |apply PC_value; exact Logic.I|exact H4].
      destruct H1 as [n Hn]. exists (S n). cbn [yueval eval_body]. unfold ebind. rewrite Hn. reflexivity.
    + pose proof (ires_not_apply _ _ E v x M1 C1 Ea R1) as Eax.
      destruct (IH C2 vs' xs' V2 M2 R2 G2 (indent_then ind (itree E)) (indent_then ind' x)) as (ys & H4 & H5 & H6).
      exists (y :: ys). split; [|split; [constructor; assumption|intros Hfull; inversion Hfull; subst; f_equal; auto]]. cbn [pieces]; rewrite ?Ea.
      replace (y :: pieces (indent_then ind (itree E)) (map itree l) ys) with (as_applied ind' x y :: pieces (indent_then ind (itree E)) (map itree l) ys)
        by (rewrite as_applied_is, Eax; reflexivity).
      eapply BL_value; [apply shape_comment, Sx|exact H1|apply shape_piece, Sy|exact H4].
Qed.
Lemma steps_IText l sq q : Forall steps l -> steps (IText l sq q).
Proof.
  intros Hl F H N o o' v x Hm Hw Hx Hg. cbn [fit] in Hg. apply fits_spec in Hg. pose proof (move_all _ _ _ _ _ l Hm (fun K => K)) as Vm. inversion Hw as [| | | | | | | | | | |? ? ? vs t Hvs Hc Ht|]; subst.
  assert (Go : forall x, (exists ys, block ec parse (IndStr []) x F s (pieces (IndStr []) (map itree l) ys) F s /\ Forall2 (ires N o') l ys /\ (Forall (full F H N) l -> ys = vs)) ->
    exists y, evs (NT x (IndStr [])) F s y F s /\ ires N o' (IText l sq q) y /\ (full F H N (IText l sq q) -> y = NRaw t)).
  { intros z (ys & H1 & H2 & H3). set (ws := pieces (IndStr []) (map itree l) ys) in *.
    assert (Hlen : List.length (map itree l) = List.length ys) by (rewrite map_length; clear -H2; induction H2; cbn [List.length]; congruence).
    assert (Htv : ys = vs -> NRaw (plain ec (NT ws (IndStr []))) = NRaw t).
    { intros ->. f_equal. symmetry. apply (written_plain ec _ Hshift) in Ht. exact Ht. }
    exists (tval ec ws). split; [apply text_spec; [exact Hbr|]; exists ws; split; [exact H1|reflexivity]|].
    unfold tval. destruct (is_term (NT ws (IndStr []))) eqn:Et.
    - assert (ys = vs). { eapply ires_terms; [exact Hvs|exact H2|]. cbn [is_term] in Et. unfold ws in Et. rewrite pieces_term in Et by exact Hlen. exact Et. }
      match goal with E : ys = vs |- _ => rewrite (Htv E) end. split; [apply ires_mean, Hw|reflexivity].
    - split.
      + right. right. exists ys. split; [reflexivity|]. split; [exact Et|apply ires2_spec, H2].
      + intros Hfull. exfalso. cbn [full] in Hfull. apply fulls_spec in Hfull. cbn [is_term] in Et. unfold ws in Et. rewrite pieces_term, (H3 Hfull) in Et by exact Hlen.
        pose proof (data_term (NList vs) (DA_list vs (imean_list_data _ _ Hvs))) as Ht2. cbn [is_term] in Ht2. congruence. }
  destruct Hx as [(-> & Kc & Kn)|[Hx|(xs & -> & _ & Hx)]]; [|eapply steps_mean; eassumption|].
  - destruct (Go (map itree l)) as (y & [n Hn] & H2); [apply (text_first F H N o o'); try assumption; [apply cleanl_spec, Kc|intros Ho; apply nocondl_spec, (Kn Ho)]|]. exists y. split; [|exact H2].
    exists (S n). exact Hn.
  - apply Go. apply ires2_spec in Hx. apply (text_again F H N o o'); assumption.
Qed.

(** calls *)
Lemma closure_step F b fr dflt b' : evs b (fr :: F) s b' (fr :: F) s ->
  evs (NLClosure b fr [] dflt) F s (match unassigned fr with Some _ => NLClosure b' fr [] dflt | None => b' end) F s.
Proof.
  intros [n Hn]. exists (S n). cbn [yueval eval_body]. unfold ebind, in_frame. rewrite Hn. destruct (unassigned fr); reflexivity.
Qed.
Lemma dict_set_get p v (fr : frame) k : dict_get k (frame_set p v fr) = if teqb p k then Some v else dict_get k fr.
Proof.
  unfold frame_set. rewrite dict_get_app. destruct (teqb_spec p k) as [->|Hn].
  - replace (dict_get k (frame_del k fr)) with (@None node); [cbn [dict_get]; rewrite teqb_refl; reflexivity|].
    symmetry. apply dict_get_none. unfold names, frame_del. intros H. apply in_map_iff in H as (b & E & H). apply filter_In in H as [_ H].
    rewrite E, teqb_refl in H. discriminate H.
  - assert (E : dict_get k (frame_del p fr) = dict_get k fr).
    { unfold frame_del. clear -Hn. induction fr as [|[q v] fr IH]; [reflexivity|]. cbn [filter fst]. destruct (teqb_spec p q) as [->|Hq]; cbn [negb].
      - cbn [dict_get]. destruct (teqb_spec k q) as [->|_]; [congruence|exact IH].
      - cbn [dict_get]. destruct (teqb k q); [reflexivity|exact IH]. }
    rewrite E. destruct (dict_get k fr); [reflexivity|]. cbn [dict_get]. destruct (teqb_spec k p) as [->|_]; [congruence|reflexivity].
Qed.
Lemma all2_keep {A B} (R S : A -> B -> Prop) l m : (forall x y, In x l -> R x y -> S x y) -> Forall2 R l m -> Forall2 S l m.
Proof. intros H F. induction F; constructor; [apply H; [left; reflexivity|assumption]|]. apply IHF. intros. apply H; [right|]; assumption. Qed.
Lemma partly_set N p1 p q a1 A l fr y : partly N (p1 ++ p :: q) (a1 ++ A :: l) fr -> List.length p1 = List.length a1 -> NoDup (p1 ++ p :: q) -> ires N true A y ->
  partly N (p1 ++ p :: q) (a1 ++ A :: l) (frame_set p y fr).
Proof.
  intros (Hn & Hk & Hf) Hl Hd Hy. split; [apply frame_set_nodup, Hn|]. split.
  - intros k. unfold dict_mem. rewrite dict_set_get. destruct (teqb_spec p k) as [->|Hne].
    + split; intros _; [apply in_or_app; right; left; reflexivity|reflexivity].
    + apply Hk.
  - assert (E : exists m, Forall2 (fun p A => exists w, dict_get p fr = Some w /\ (w = NBound \/ ires N true A w)) p1 a1 /\
      Forall2 (fun p A => exists w, dict_get p fr = Some w /\ (w = NBound \/ ires N true A w)) q l /\ m = tt).
    { exists tt. clear - Hf Hl. revert a1 Hf Hl. induction p1 as [|k p1 IH]; intros [|B a1] Hf Hl; try discriminate Hl; inversion Hf; subst.
      - split; [constructor|split; [assumption|reflexivity]].
      - injection Hl as Hl. match goal with H : Forall2 _ (p1 ++ _) _ |- _ => destruct (IH a1 H Hl) as (I1 & I2 & _) end.
        split; [constructor; assumption|split; [assumption|reflexivity]]. }
    destruct E as (_ & E1 & E2 & _). apply Forall2_app; [|constructor].
    + eapply all2_keep; [|exact E1]. intros k B Hin (w & Hw & H). exists w. split; [|exact H]. rewrite dict_set_get.
      destruct (teqb_spec p k) as [->|_]; [|exact Hw]. exfalso. apply NoDup_remove_2 in Hd. apply Hd, in_or_app. left. exact Hin.
    + exists y. split; [rewrite dict_set_get, teqb_refl; reflexivity|right; exact Hy].
    + eapply all2_keep; [|exact E2]. intros k B Hin (w & Hw & H). exists w. split; [|exact H]. rewrite dict_set_get.
      destruct (teqb_spec p k) as [->|_]; [|exact Hw]. exfalso. apply NoDup_remove_2 in Hd. apply Hd, in_or_app. right. exact Hin.
Qed.
Lemma filled_set p1 p q a1 A fr y : filled p1 a1 fr -> NoDup (p1 ++ p :: q) -> imean A y -> filled (p1 ++ [p]) (a1 ++ [A]) (frame_set p y fr).
Proof.
  intros Hf Hd Hy. apply Forall2_app.
  - eapply all2_keep; [|exact Hf]. intros k B Hin (w & Hw & H). exists w. split; [|exact H]. rewrite dict_set_get.
    destruct (teqb_spec p k) as [->|_]; [|exact Hw]. exfalso. apply NoDup_remove_2 in Hd. apply Hd, in_or_app. left. exact Hin.
  - constructor; [|constructor]. exists y. split; [rewrite dict_set_get, teqb_refl; reflexivity|exact Hy].
Qed.
Lemma first_argument (n : nat) x xs F y : ev n x F s = Ok (y, F, s) -> shape y ->
  list_eval_1 (ev n) (x :: xs) F s = Ok (Some y, xs, F, s).
Proof. intros H Hs. cbn [list_eval_1]. unfold ebind. rewrite H. destruct y; try contradiction Hs; reflexivity. Qed.
Lemma use_run F N args B vs w dflt file pos ps own : Forall steps args -> steps B -> Forall2 imean args vs -> imean B w -> NoDup ps -> ~ In va_args ps ->
  Forall (fit F N N) args -> (forall fr, partly N ps args fr -> fit (fr :: F) (inside N ps) (inside N ps) B) ->
  (forall fr, partly N ps args fr -> opens fr = [] -> fit (fr :: F) (inside N ps) (after N ps own) B) ->
  forall q p1 a1 l fr b xs, q <> [] -> ps = p1 ++ q -> args = a1 ++ l -> List.length p1 = List.length a1 -> List.length q = List.length l ->
  partly N ps args fr -> opens fr = q -> ires (inside N ps) true B b -> Forall2 (ires N true) l xs ->
  exists y, ires (after N ps own) true B y /\
    (Forall (full F N N) args -> filled p1 a1 fr -> (forall fr, partly N ps args fr -> filled ps args fr -> full (fr :: F) (inside N ps) (after N ps own) B) -> y = w) /\
    exists W, forall n, (W <= n)%nat -> apply_closure (ev n) (clo dflt b fr) xs [] file pos F s = Ok (y, F, s).
Proof.
  intros Sa SB Ma MB Hd Hva Ga GB GB2. induction q as [|p q IH]; intros p1 a1 l fr b xs Hq Ep Ea H1 H2 Hp Ho Hb Hx; [congruence|].
  destruct l as [|A l]; [discriminate H2|]. injection H2 as H2. inversion Hx as [|A0 x l0 xs' Rx Rxs]; subst A0 l0 xs. clear Hx.
  assert (Vnn : forall E, move N N true true E) by (intros E; split; [auto|split; auto]).
  assert (Vii : forall E, move (inside N ps) (inside N ps) true true E) by (intros E; split; [auto|split; auto]).
  assert (Via : forall E, move (inside N ps) (after N ps own) true true E) by (intros E; split; [intros a Ha; left; exact Ha|split; auto]).
  assert (MA : exists v, imean A v).
  { rewrite Ea in Ma. apply Forall2_app_inv_l in Ma as (v1 & v2 & _ & Ma & _). inversion Ma; subst. eauto. }
  destruct MA as (v & MA).
  assert (HinA : In A args) by (rewrite Ea; apply in_or_app; right; left; reflexivity).
  assert (SA : steps A) by (eapply Forall_forall; [exact Sa|exact HinA]).
  assert (GA : fit F N N A) by (eapply Forall_forall; [exact Ga|exact HinA]).
  destruct (SA F N N true true v x (Vnn A) MA Rx GA) as (y1 & Y1 & Y2 & Y3). pose proof (ires_shape _ _ _ _ _ MA Y2) as Sy. pose proof (ires_unbound _ _ _ _ _ MA Y2) as Uy.
  set (e' := frame_set p y1 fr).
  assert (Hp' : partly N ps args e').
  { unfold e'. clear - Hp H1 Hd Y2 Ep Ea. subst ps args. apply partly_set; assumption. }
  assert (Ho' : opens e' = q).
  { unfold e'. rewrite opens_set, Ho by exact Uy. apply filter_head. clear - Ep Hd. subst ps. apply NoDup_remove_2 in Hd. intros Hin. apply Hd, in_or_app. right. exact Hin. }
  assert (Hfill : Forall (full F N N) args -> filled p1 a1 fr -> filled (p1 ++ [p]) (a1 ++ [A]) e').
  { intros Hf Hfi. assert (Ey : y1 = v) by (apply Y3; eapply Forall_forall; [exact Hf|exact HinA]).
    unfold e'. rewrite Ey. eapply filled_set; [exact Hfi|rewrite <- Ep; exact Hd|exact MA]. }
  assert (Hhead : forall n r, bind_param (ev n) (clo dflt b fr) p y1 xs' [] file pos F s = r -> ev n x F s = Ok (y1, F, s) ->
    apply_closure (ev n) (clo dflt b fr) (x :: xs') [] file pos F s = r).
  { intros n r Hbd Hxn. unfold apply_closure. cbn [cl_env clo]. rewrite unassigned_opens, Ho. cbn [hd_error].
    destruct (teqb_spec p va_args) as [E|_]; [exfalso; apply Hva; rewrite Ep, <- E; apply in_or_app; right; left; reflexivity|].
    unfold ebind. rewrite (first_argument n x xs' F y1 Hxn Sy). exact Hbd. }
  apply evs_big in Y1 as (N1 & Y1).
  destruct q as [|p' q].
  - destruct (SB (e' :: F) _ _ true true w b (Via B) MB Hb (GB2 e' Hp' Ho')) as (b2 & B1 & B2 & B3).
    destruct l; [|discriminate H2]. inversion Rxs; subst xs'. exists b2. split; [exact B2|]. split.
    + intros Hf Hfi HF. apply B3, HF; [exact Hp'|]. specialize (Hfill Hf Hfi). rewrite Ep, Ea. exact Hfill.
    + pose proof (closure_step F b e' dflt b2 B1) as Hc. rewrite unassigned_opens, Ho' in Hc. cbn [hd_error] in Hc. apply evs_big in Hc as (N2 & Hc).
      exists (N1 + N2)%nat. intros n Hn. apply Hhead; [|apply Y1; lia]. unfold bind_param. cbn [cl_late clo dict_get cl_env cl_node cl_dflt].
      unfold ebind, eret. fold e'. rewrite unassigned_opens, Ho'. cbn [hd_error]. apply Hc. lia.
  - destruct (SB (e' :: F) _ _ true true w b (Vii B) MB Hb (GB e' Hp')) as (b2 & B1 & B2 & _).
    assert (Hls : Forall steps l /\ Forall (fit F N N) l /\ exists vl, Forall2 imean l vl).
    { rewrite Ea in Sa, Ga, Ma. apply Forall_app in Sa as [_ Sa]. inversion Sa; subst. apply Forall_app in Ga as [_ Ga]. inversion Ga; subst.
      apply Forall2_app_inv_l in Ma as (v1 & v2 & _ & Ma & _). inversion Ma; subst. eauto. }
    destruct Hls as (Sl & Gl & vl & Ml).
    destruct (steps_list F N N true true l Sl vl xs') as (ys & Z1 & Z2 & _); [apply Forall_forall; intros E _; apply Vnn|exact Ml|exact Rxs|exact Gl|].
    destruct (IH (p1 ++ [p]) (a1 ++ [A]) l e' b2 ys) as (y & K1 & K2 & N2 & K3); try assumption.
    { discriminate. } { rewrite <- app_assoc. exact Ep. } { rewrite <- app_assoc. exact Ea. } { rewrite !app_length, H1. reflexivity. }
    exists y. split; [exact K1|]. split; [intros Hf Hfi; apply K2; auto|].
    pose proof (closure_step F b e' dflt b2 B1) as Hc. rewrite unassigned_opens, Ho' in Hc. cbn [hd_error] in Hc.
    assert (Hev : evs (NApply (NLClosure b e' [] dflt) xs' [] file pos) F s y F s).
    { apply evals_fin. apply (apply_fin ec parse _ xs' [] file pos F s _ F s _ F s _ Hc Z1). split; [discriminate|]. exists N2.
      unfold apply_rest. cbn [as_closure]. apply K3. lia. }
    apply evs_big in Hev as (N3 & Hev). exists (N1 + N3)%nat. intros n Hn. apply Hhead; [|apply Y1; lia].
    unfold bind_param. cbn [cl_late clo dict_get cl_env cl_node cl_dflt]. unfold ebind, eret. fold e'.
    assert (Hne : xs' <> []) by (destruct l; [discriminate H2|]; inversion Rxs; discriminate). destruct xs' as [|x2 xs2]; [congruence|]. apply Hev. lia.
Qed.
Lemma fresh_partly N ps args : NoDup ps -> List.length ps = List.length args -> partly N ps args (fresh_frame ps).
Proof.
  intros Hd Hl. split; [rewrite names_fresh; exact Hd|]. split.
  - intros k. unfold dict_mem. destruct (dict_get k (fresh_frame ps)) eqn:E.
    + split; [|reflexivity]. intros _. rewrite <- names_fresh. destruct (In_dec (list_eq_dec N.eq_dec) k (names (fresh_frame ps))) as [H|H]; [exact H|].
      apply dict_get_none in H. congruence.
    + split; [discriminate|]. intros H. rewrite (fresh_get ps k H) in E. discriminate E.
  - assert (K : forall qs (l : list iexp), List.length qs = List.length l -> incl qs ps ->
      Forall2 (fun p A => exists w, dict_get p (fresh_frame ps) = Some w /\ (w = NBound \/ ires N true A w)) qs l).
    { induction qs as [|q qs IH]; intros [|A l] H Hi; try discriminate H; constructor.
      - exists NBound. split; [apply fresh_get, Hi; left; reflexivity|left; reflexivity].
      - apply IH; [injection H; auto|]. intros k Hk. apply Hi. right. exact Hk. }
    apply K; [exact Hl|apply incl_refl].
Qed.
(** the call of a function, with arguments that become [xs] *)
Lemma use_call F N fn nodes xs args B vs w dflt b file pos ps own : Forall steps args -> steps B -> Forall2 imean args vs -> imean B w ->
  ps <> [] -> NoDup ps -> ~ In va_args ps -> List.length ps = List.length args ->
  Forall (fit F N N) args -> (forall fr, partly N ps args fr -> fit (fr :: F) (inside N ps) (inside N ps) B) ->
  (forall fr, partly N ps args fr -> opens fr = [] -> fit (fr :: F) (inside N ps) (after N ps own) B) ->
  evs fn F s (NLClosure b (fresh_frame ps) [] dflt) F s -> ires (inside N ps) true B b -> evs (NList nodes) F s (NList xs) F s -> Forall2 (ires N true) args xs ->
  exists y, evs (NApply fn nodes [] file pos) F s y F s /\ ires (after N ps own) true B y /\
    (Forall (full F N N) args -> (forall fr, partly N ps args fr -> filled ps args fr -> full (fr :: F) (inside N ps) (after N ps own) B) -> y = w).
Proof.
  intros Sa SB Ma MB Hne Hd Hva Hl Ga GB GB2 Hfn Hb Hxs Rxs.
  destruct (use_run F N args B vs w dflt file pos ps own Sa SB Ma MB Hd Hva Ga GB GB2 ps [] [] args (fresh_frame ps) b xs) as (y & H1 & H2 & W & H3); try assumption; try reflexivity.
  { apply fresh_partly; assumption. } { apply opens_fresh. }
  exists y. split; [|split; [exact H1|intros Hf HF; apply H2; [exact Hf|constructor|exact HF]]].
  apply evals_fin. apply (apply_fin ec parse fn nodes [] file pos F s _ F s _ F s _ Hfn Hxs). split; [discriminate|]. exists W.
  unfold apply_rest. cbn [as_closure]. apply H3. lia.
Qed.
Lemma steps_IUse f ps own l B file pos : Forall steps l -> steps B -> steps (IUse f ps own l B file pos).
Proof.
  intros Sl SB F H N o o' v x Hm Hw Hx (G1 & (b & dflt & G2 & G3) & G4 & G5 & G6). apply fits_spec in G1.
  inversion Hw as [| | | | | | | | | | | |? ? ? ? ? ? ? vs ? Ma Hl Hne Hd Hva Fl FB Hown MB]; subst.
  assert (Hth : forall y, ires (with_names N own) true B y -> ires N o' (IUse f ps own l B file pos) y) by (intros y Hy; right; right; exact Hy).
  destruct Hx as [(-> & Kc & Kn)|[Hx|Hx]]; [|eapply steps_mean; eassumption|].
  - assert (Vl : Forall (move H N o true) l).
    { apply Forall_forall. intros E HE. destruct Hm as (V1 & V2 & _). split; [exact V1|]. split; [exact V2|]. intros _. right. eapply Forall_forall; eassumption. }
    destruct (steps_list F H N o true l Sl vs (map itree l) Vl Ma) as (xs & X1 & X2 & _); [apply ires_trees; [apply cleanl_spec, Kc|intros Ho; apply nocondl_spec, (Kn Ho)]|exact G1|].
    destruct (use_call F N (NVar (RList []) f) (map itree l) xs l B vs v dflt b file pos ps own Sl SB Ma MB Hne Hd Hva Hl) as (y & H1 & H2 & H3); try assumption.
    { eapply Forall_impl; [|exact G1]. intros E. apply fit_again, Hm. }
    { exact (var_step F (RList []) f _ G2). }
    { apply G3. intros p Hp [_ Hn]. contradiction. }
    exists y. split; [exact H1|]. split; [|intros [Hf HF]; apply fulls_spec in Hf; apply H3; [|apply HF]; eapply Forall_impl; [|exact Hf]; intros E; apply full_again, Hm].
    apply Hth. eapply ires_less; [| |exact H2]; [|auto]. intros a Ha. destruct (In_dec (list_eq_dec N.eq_dec) a ps) as [Hi|Hi].
    + right. split; [exact Hi|]. destruct Ha as [Ha|Ha]; auto.
    + left. split; [|exact Hi]. destruct Ha as [Ha|Ha]; [exact Ha|]. exfalso. apply Hi, Hown, Ha.
  - destruct (SB F (with_names H own) (with_names N own) true true v x) as (y & H1 & H2 & H3); [|exact MB|exact Hx|exact G6|].
    { split; [|split; auto]. intros a [Ha|Ha]; [left; apply Hm, Ha|right; exact Ha]. }
    exists y. split; [exact H1|]. split; [apply Hth, H2|]. intros (_ & _ & Hf). auto.
Qed.
Lemma all_steps E : steps E.
Proof.
  induction E using iexp_nest.
  - intros F H N o o' w x Hm Hw [(-> & _)|[Hx|[]]] _; [|eapply steps_mean; eassumption]. inversion Hw; subst. cbn [itree]. eapply steps_mean; eassumption.
  - apply steps_global.
  - apply steps_param.
  - apply steps_sub. assumption.
  - apply steps_IList. assumption.
  - apply steps_cond; assumption.
  - apply steps_ICall. assumption.
  - apply steps_IPick. assumption.
  - apply steps_IShow. assumption.
  - apply steps_IInfix. assumption.
  - intros F H N o o' w x Hm Hw [(-> & _)|[Hx|[]]] _; [|eapply steps_mean; eassumption]. inversion Hw; subst. cbn [itree]. eapply steps_mean; eassumption.
  - apply steps_IText. assumption.
  - apply steps_IUse; assumption.
Qed.
End Use.
