(** Expressions in the body of a function (proofs only). *)
From Coq Require Import List NArith ZArith Bool String Lia ZifyBool ZifyNat ZifyN.
From Verif Require Import PyStr Ast Lex Parse Final Eval PyStrFacts EnvSpec EnvFacts EvalSpec EvalMono EvalKeep EvalPure EvalFacts EvalFacts2 EvalFacts3 EvalFacts4 ApplyFacts ApplyFacts2 ApplyFacts3 ApplyFacts4 CoreSpec.
Import ListNotations.
Open Scope list_scope.

(** ** Induction over expressions *)
Section Ind.
Variable P : cexp -> Prop.
Hypotheses (Pval : forall v, P (CValue v)) (Ppar : forall r a, P (CParam r a)) (Plist : forall l, Forall P l -> P (CList l))
  (Pcond : forall c a b, P c -> P a -> P b -> P (CCond c a b))
  (Pcall : forall f l file pos, Forall P l -> P (CCall f l file pos))
  (Ppick : forall z l file pos, Forall P l -> P (CPick z l file pos))
  (Pshow : forall E file pos, P E -> P (CShow E file pos))
  (Pinfix : forall a file pos, P (CInfix a file pos)) (Plit : forall s i, P (CLit s i))
  (Ptext : forall l sq q, Forall P l -> P (CText l sq q)).
Fixpoint cexp_nest (E : cexp) : P E :=
  let all := fix all l : Forall P l := match l with [] => Forall_nil _ | E :: r => Forall_cons E (cexp_nest E) (all r) end in
  match E with
  | CValue v => Pval v
  | CParam r a => Ppar r a
  | CList l => Plist l (all l)
  | CCond c a b => Pcond c a b (cexp_nest c) (cexp_nest a) (cexp_nest b)
  | CCall f l file pos => Pcall f l file pos (all l)
  | CPick z l file pos => Ppick z l file pos (all l)
  | CShow E file pos => Pshow E file pos (cexp_nest E)
  | CInfix a file pos => Pinfix a file pos
  | CLit s i => Plit s i
  | CText l sq q => Ptext l sq q (all l)
  end.
End Ind.

(** ** Values *)
Section DataInd.
Variable P : node -> Prop.
Hypothesis Hz : forall z, P (NInt z).
Hypothesis Hb : forall z, P (NBool z).
Hypothesis Hf : forall z, P (NFloat z).
Hypothesis Hs : forall z, P (NStr z).
Hypothesis Hr : forall z, P (NRaw z).
Hypothesis Ha : forall z, P (NAtom z).
Hypothesis Hp : forall s i, P (NPlain s i false).
Hypothesis Hl : forall l, Forall P l -> P (NList l).
Fixpoint data_nest v (D : data v) {struct D} : P v :=
  match D in data v return P v with
  | DA_int z => Hz z | DA_bool z => Hb z | DA_float z => Hf z | DA_str z => Hs z | DA_raw z => Hr z | DA_atom z => Ha z
  | DA_plain s i => Hp s i
  | DA_list l F => Hl l ((fix all l (F : Forall data l) : Forall P l :=
      match F with Forall_nil _ => Forall_nil _ | Forall_cons x D F => Forall_cons x (data_nest x D) (all _ F) end) l F)
  end.
End DataInd.
Lemma data_term v : data v -> is_term v = true.
Proof. intros H. induction H using data_nest; try reflexivity. cbn [is_term]. apply forallb_forall. apply Forall_forall. assumption. Qed.
Lemma data_one v : data v -> one_element v.
Proof. intros []; exact Logic.I. Qed.
Lemma data_unbound v : data v -> v <> NBound.
Proof. intros []; discriminate. Qed.
Lemma data_steady ec parse v : data v -> steady ec parse v.
Proof.
  intros H. induction H using data_nest; try (split; [exact Logic.I|split; [discriminate|intros; exists 1%nat; reflexivity]]).
  apply ste_list. assumption.
Qed.
Lemma term_alive : forall v, is_term v = true -> detect_deadlock v = false.
Proof.
  fix rec 1. intros v. destruct v; try reflexivity; try discriminate; cbn [is_term detect_deadlock]; try apply rec;
    (induction l as [|x l IH]; [reflexivity|]; cbn [forallb existsb]; intros H; apply andb_true_iff in H as [H1 H2]; rewrite (rec x H1); exact (IH H2)).
Qed.
Lemma indexed_det vs l l' : indexed vs l -> indexed vs l' -> l = l'.
Proof. intros H1 H2. destruct H1; inversion H2; subst; congruence. Qed.
Lemma element_det l z v w : element l z v -> element l z w -> v = w.
Proof.
  intros H1 H2. apply subscript_element in H1. apply subscript_element in H2. rewrite H1 in H2.
  assert (E : forall s, @eret node v [] s = eret w [] s) by (intros s; rewrite H2; reflexivity).
  specialize (E (St [] [] [] O [] [] None false [] [] [])). injection E. auto.
Qed.
Lemma all2_impl {A B} (R S : A -> B -> Prop) l m : Forall (fun x => forall y, R x y -> S x y) l -> Forall2 R l m -> Forall2 S l m.
Proof. intros H F. induction F; inversion H; subst; constructor; auto. Qed.
Lemma all2_det {A B} (R : A -> B -> Prop) l : Forall (fun x => forall y z, R x y -> R x z -> y = z) l -> forall m n, Forall2 R l m -> Forall2 R l n -> m = n.
Proof. induction 1 as [|x l Hx _ IH]; intros m n H1 H2; inversion H1; inversion H2; subst; [reflexivity|]. f_equal; auto. Qed.

Section Core.
Variables (ec : ectx) (parse : text -> M (list node)).
Notation ev := (yueval ec parse).
Notation fin := (finishes ec parse).
Notation evs := (evals ec parse).
Notation ste := (steady ec parse).
Variable shift : text -> text -> text -> Prop.
Hypothesis Hshift : forall i u w, shift i u w -> w = trim (e_trim ec) i u.
Hypothesis Hbr : e_browse ec = false.
Variable free : text -> Prop.
Variable bs : list (text * node).
Hypothesis Hbs : Forall (fun b => data (snd b)) bs.
Hypothesis Hfree : forall n v, free n -> ~ gives bs n v.
Notation mean := (means ec parse shift free bs).

Lemma bs_data k v : gives bs k v -> data v.
Proof. intros (x & y & E & _). rewrite E in Hbs. apply Forall_app in Hbs as [_ H]. inversion H; subst. assumption. Qed.
Lemma selects_if v a b l : selects v a b l -> l = if truthy v then a else b.
Proof.
  intros [Ht Hl]. pose proof (truthy_spec parse v Ht) as Hv.
  destruct Hl as [[Hf ->]|[Hf ->]]; destruct (truthy v); try reflexivity; exfalso; intuition discriminate.
Qed.
Ltac csel := repeat match goal with H : selects _ _ _ _ |- _ => apply selects_if in H end; subst.
Lemma means_data E : forall v, mean E v -> data v.
Proof.
  induction E using cexp_nest; intros w Hw; inversion Hw; subst; try assumption; try constructor.
  - eapply bs_data; eassumption.
  - match goal with H : Forall2 mean l vs |- _ => revert H end. clear - H. revert vs. induction H as [|E l HE _ IH]; intros vs F; inversion F; subst; constructor; auto.
  - csel. destruct (truthy vc); auto.
  - match goal with H : value_text _ _ |- _ => destruct H; constructor end.
Qed.
Lemma mean_list_data l vs : Forall2 mean l vs -> Forall data vs.
Proof. induction 1; constructor; [eapply means_data; eassumption|assumption]. Qed.

(** ** Texts *)
Lemma shown_plain : forall v u, shown v u -> plain ec v = u.
Proof.
  fix rec 3. intros v u H. destruct H as [v u H|sr i|l us H].
  - destruct H; reflexivity.
  - cbn [plain]. unfold get_trimmed. destruct (e_trim ec); reflexivity.
  - cbn [plain]. revert l us H. fix all 3. intros l us H. destruct H as [|x y l us H1 H2]; [reflexivity|].
    cbn [map List.concat]. rewrite (rec _ _ H1). f_equal. apply (all _ _ H2).
Qed.
Definition is_apply (x : node) : bool := match x with NApply _ _ _ _ _ => true | _ => false end.
Lemma applied_spec x : reflect (applied x) (is_apply x).
Proof. destruct x; constructor; cbn [applied]; auto. Qed.
(** the pieces of the text when the expressions [xs] have become [vs] *)
Fixpoint pieces (ind : indent) (xs vs : list node) : list node :=
  match xs, vs with
  | x :: xs, v :: vs => if is_apply x then NTrim v (ind_text ind) :: pieces IndFalse xs vs
                        else v :: pieces (indent_then ind x) xs vs
  | _, _ => []
  end.
Lemma written_plain ind xs vs t : written shift ind xs vs t -> t = List.concat (map (plain ec) (pieces ind xs vs)).
Proof.
  induction 1 as [ind|ind x v u w r vs t Ha Hv Hw _ IH|ind x v u r vs t Ha Hv _ IH]; [reflexivity| |]; cbn [pieces].
  - destruct (applied_spec x); [|contradiction]. cbn [map List.concat plain]. rewrite (shown_plain _ _ Hv), (Hshift _ _ _ Hw), IH. reflexivity.
  - destruct (applied_spec x); [contradiction|]. cbn [map List.concat]. rewrite (shown_plain _ _ Hv), IH. reflexivity.
Qed.
Definition tval (ws : list node) : node :=
  if is_term (NT ws (IndStr [])) then NRaw (plain ec (NT ws (IndStr []))) else NT ws (IndStr []).

(** ** Determinism *)
Variables (e : env) (s : yst).
Lemma constant_det ast t t' : constant_text ec parse ast t -> constant_text ec parse ast t' -> t = t'.
Proof.
  intros H1 H2. destruct (H1 e s) as (v & Hv & E1), (H2 e s) as (w & Hw & E2).
  destruct (evals_det _ _ _ _ _ _ _ _ _ _ _ Hv Hw) as (-> & _). congruence.
Qed.
Lemma function_det n vs v w : function_gives ec n vs v -> function_gives ec n vs w -> v = w.
Proof.
  intros (f & x & F1 & F2 & ->) (g & y & G1 & G2 & ->). specialize (F1 []). specialize (G1 []).
  rewrite F1 in G1. injection G1 as <-. specialize (F2 s). specialize (G2 s). congruence.
Qed.
Lemma picks_det ns l m : picks free bs ns l -> picks free bs ns m -> l = m.
Proof.
  intros H. revert m. induction H as [|n v r l Hv Hn _ IH|n r l Hf _ IH]; intros m Hm; inversion Hm; subst; [reflexivity| | | |].
  - f_equal; [|auto]. f_equal. eapply gives_det; eassumption.
  - exfalso. eapply Hfree; eassumption.
  - exfalso. eapply Hfree; eassumption.
  - auto.
Qed.
Lemma means_det E : forall v w, mean E v -> mean E w -> v = w.
Proof.
  induction E using cexp_nest; intros x y Hx Hy; inversion Hx; inversion Hy; subst; try reflexivity.
  - eapply gives_det; eassumption.
  - f_equal. eapply all2_det; eassumption.
  - csel. assert (vc0 = vc) by auto. subst. destruct (truthy vc); auto.
  - assert (vs0 = vs) by (eapply all2_det; eassumption). subst. eapply function_det; eassumption.
  - assert (vs0 = vs) by (eapply all2_det; eassumption). subst. assert (l1 = l0) by (eapply indexed_det; eassumption). subst.
    eapply element_det; eassumption.
  - auto.
  - assert (t0 = t) by (eapply constant_det; eassumption). subst. assert (ns0 = ns) by congruence. subst.
    assert (vals0 = vals) by (eapply picks_det; eassumption). subst. congruence.
  - assert (vs0 = vs) by (eapply all2_det; eassumption). subst. f_equal.
    repeat match goal with H : written _ _ _ _ _ |- _ => apply written_plain in H end. congruence.
Qed.

(** ** What an expression becomes while parameters are filled in *)
Definition binding_state (b : text * node) (c : text * node) : Prop :=
  fst b = fst c /\ (snd c = NVar (RList []) (raw (fst b)) \/ snd c = snd b).
Fixpoint res (E : cexp) (x : node) {struct E} : Prop :=
  let all2 := fix all2 l xs := match l, xs with
    | [], [] => True
    | E :: l, x :: xs => res E x /\ all2 l xs
    | _, _ => False end in
  x = tree E \/ mean E x \/
  match E with
  | CList l => exists xs, x = NList xs /\ all2 l xs
  | CCond c a b => (exists xc xa xb, x = NCondClosure xc xa xb /\ res c xc /\ res a xa /\ res b xb) \/
      (exists vc, mean c vc /\ res (if truthy vc then a else b) x)
  | CCall f l file pos => exists xs, x = NApply (NBuiltin f) xs [] file pos /\ all2 l xs
  | CPick z l file pos => exists xs, x = NApply (NInt z) xs [] file pos /\ all2 l xs
  | CShow E file pos => (exists y, x = NApply y [] [] file pos /\ res E y) \/ res E x
  | CInfix ast file pos => exists t ns vals fr, x = NInfixClosure t fr file pos /\ constant_text ec parse ast t /\
      e_names ec (lstrip t) = Ok ns /\ picks free bs ns vals /\ Forall2 binding_state vals fr
  | CText l sq q => exists xs, x = NT (pieces (IndStr []) (map tree l) xs) (IndStr []) /\ is_term x = false /\ all2 l xs
  | _ => False
  end.
Definition res2 := fix all2 l xs := match l, xs with
    | [], [] => True
    | E :: l, x :: xs => res E x /\ all2 l xs
    | _, _ => False end.
Lemma res2_spec l xs : res2 l xs <-> Forall2 res l xs.
Proof.
  revert xs. induction l as [|E l IH]; intros [|x xs]; cbn [res2]; split; intros H; try constructor; try contradiction; try (inversion H; subst; fail).
  - apply H.
  - apply IH, H.
  - inversion H; subst; assumption.
  - apply IH. inversion H; subst; assumption.
Qed.
Lemma res_tree E : res E (tree E).
Proof. destruct E; left; reflexivity. Qed.
Lemma res_mean E v : mean E v -> res E v.
Proof. destruct E; right; left; assumption. Qed.
Lemma res_trees l : Forall2 res l (map tree l).
Proof. induction l; constructor; auto using res_tree. Qed.
Lemma res_means l vs : Forall2 mean l vs -> Forall2 res l vs.
Proof. induction 1; constructor; auto using res_mean. Qed.

(** ** Shapes *)
Definition shape (x : node) : Prop :=
  match x with
  | NVar _ _ | NList _ | NCond _ _ _ | NCondClosure _ _ _ | NApply _ _ _ _ _ | NInfix _ _ _ | NInfixClosure _ _ _ _
  | NText _ _ _ | NT _ _ | NInt _ | NBool _ | NFloat _ | NStr _ | NRaw _ | NAtom _ | NPlain _ _ _ => True
  | _ => False
  end.
Lemma data_shape v : data v -> shape v.
Proof. intros []; exact Logic.I. Qed.
Lemma shape_one x : shape x -> one_element x.
Proof. destruct x; cbn; auto. Qed.
Lemma means_list_inv l v : mean (CList l) v -> exists vs, v = NList vs /\ Forall2 mean l vs.
Proof. intros H; inversion H; subst. eauto. Qed.
Lemma res_list_inv l x : res (CList l) x -> exists xs, x = NList xs /\ Forall2 res l xs.
Proof.
  intros [->|[H|(xs & -> & H)]].
  - exists (map tree l). split; [reflexivity|apply res_trees].
  - apply means_list_inv in H as (vs & -> & H). exists vs. split; [reflexivity|apply res_means, H].
  - exists xs. split; [reflexivity|]. apply res2_spec, H.
Qed.
Lemma res_shape E : forall v x, mean E v -> res E x -> shape x.
Proof.
  induction E using cexp_nest; intros w x Hw Hx; try (apply res_list_inv in Hx as (xs & -> & _); exact Logic.I);
    (destruct Hx as [->|[Hx|Hx]]; [|apply data_shape; eapply means_data; exact Hx|]); try exact Logic.I; try contradiction.
  - inversion Hw; subst. apply data_shape. assumption.
  - inversion Hw; subst; csel. destruct Hx as [(xc & xa & xb & -> & _)|(vc' & Hc & Hx)]; [exact Logic.I|].
    destruct (truthy vc'); eauto.
  - destruct Hx as (xs & -> & _). exact Logic.I.
  - destruct Hx as (xs & -> & _). exact Logic.I.
  - inversion Hw; subst. destruct Hx as [(y & -> & _)|Hx]; [exact Logic.I|eauto].
  - destruct Hx as (t & ns & vals & fr & -> & _). exact Logic.I.
  - destruct Hx as (xs & -> & _). exact Logic.I.
Qed.
Lemma tree_shape E v : mean E v -> shape (tree E).
Proof. intros H. eapply res_shape; [exact H|apply res_tree]. Qed.
Lemma alive_list l : Forall (fun x => detect_deadlock x = false) l -> existsb detect_deadlock l = false.
Proof. induction 1 as [|x l Hx _ IH]; [reflexivity|]. cbn [existsb]. rewrite Hx. exact IH. Qed.
Lemma alive_pieces xs vs : Forall (fun x => detect_deadlock x = false) vs -> forall ind, existsb detect_deadlock (pieces ind xs vs) = false.
Proof.
  intros H. revert xs. induction H as [|v vs Hv _ IH]; intros [|x xs] ind; try reflexivity. cbn [pieces].
  destruct (is_apply x); cbn [existsb detect_deadlock]; rewrite Hv; apply IH.
Qed.
Lemma res_alive E : forall v x, mean E v -> res E x -> detect_deadlock x = false.
Proof.
  assert (K : forall l, Forall (fun E => forall v x, mean E v -> res E x -> detect_deadlock x = false) l ->
    forall vs xs, Forall2 mean l vs -> Forall2 res l xs -> Forall (fun x => detect_deadlock x = false) xs).
  { induction 1 as [|E' l HE _ IH]; intros vs xs H1 H2; inversion H1; inversion H2; subst; constructor; eauto. }
  induction E using cexp_nest; intros w x Hw Hx; try (apply res_list_inv in Hx as (xs & -> & Hx); inversion Hw; subst; apply alive_list; eapply K; eassumption);
    (destruct Hx as [->|[Hx|Hx]]; [|apply term_alive, data_term; eapply means_data; exact Hx|]); try reflexivity; try contradiction.
  - inversion Hw; subst. apply term_alive, data_term. assumption.
  - inversion Hw; subst; csel. destruct Hx as [(xc & xa & xb & -> & _)|(vc' & Hc & Hx)]; [reflexivity|].
    destruct (truthy vc'); eauto.
  - destruct Hx as (xs & -> & _). reflexivity.
  - destruct Hx as (xs & -> & _). reflexivity.
  - inversion Hw; subst. destruct Hx as [(y & -> & _)|Hx]; [reflexivity|eauto].
  - destruct Hx as (t & ns & vals & fr & -> & _). reflexivity.
  - destruct Hx as (xs & -> & _ & Hx). apply res2_spec in Hx. inversion Hw; subst. cbn [detect_deadlock]. apply alive_pieces. eapply K; eassumption.
Qed.
Lemma res_term E : forall v x, mean E v -> res E x -> is_term x = true -> x = v.
Proof.
  assert (K : forall l, Forall (fun E => forall v x, mean E v -> res E x -> is_term x = true -> x = v) l ->
    forall vs xs, Forall2 mean l vs -> Forall2 res l xs -> forallb is_term xs = true -> xs = vs).
  { induction 1 as [|E' l HE _ IH]; intros vs xs H1 H2 Ht; inversion H1; inversion H2; subst; [reflexivity|].
    cbn [forallb] in Ht. apply andb_true_iff in Ht as [Ht1 Ht2]. f_equal; eauto. }
  induction E using cexp_nest; intros w x Hw Hx Ht;
    try (apply res_list_inv in Hx as (xs & -> & Hx); inversion Hw; subst; f_equal; eapply K; eassumption);
    (destruct Hx as [->|[Hx|Hx]]; [|eapply means_det; [exact Hx|exact Hw]|]); try discriminate Ht; try contradiction.
  - inversion Hw; subst. reflexivity.
  - inversion Hw; subst; csel. destruct Hx as [(xc & xa & xb & -> & _)|(vc' & Hc & Hx)]; [discriminate Ht|].
    assert (vc' = vc) by (eapply means_det; eassumption). subst. destruct (truthy vc); eauto.
  - destruct Hx as (xs & -> & _). discriminate Ht.
  - destruct Hx as (xs & -> & _). discriminate Ht.
  - inversion Hw; subst. destruct Hx as [(y & -> & _)|Hx]; [discriminate Ht|eauto].
  - destruct Hx as (t & ns & vals & fr & -> & _). discriminate Ht.
  - inversion Hw; subst. reflexivity.
  - destruct Hx as (xs & -> & Hx & _). congruence.
Qed.
Lemma res_terms l vs xs : Forall2 mean l vs -> Forall2 res l xs -> forallb is_term xs = true -> xs = vs.
Proof.
  intros H1. revert xs. induction H1 as [|E' v l vs Hv _ IH]; intros xs H2 Ht; inversion H2; subst; [reflexivity|].
  cbn [forallb] in Ht. apply andb_true_iff in Ht as [Ht1 Ht2]. f_equal; [eapply res_term; eassumption|auto].
Qed.
Lemma res_not_list E : forall v xs, mean E v -> res E (NList xs) -> exists vs, v = NList vs.
Proof.
  induction E using cexp_nest; intros w xs Hw Hx; try (inversion Hw; subst; eauto; fail);
    (destruct Hx as [Hx|[Hx|Hx]]; [try discriminate Hx|exists xs; eapply means_det; [exact Hw|exact Hx]|]).
  - inversion Hw; subst. exists xs. symmetry. exact Hx.
  - contradiction.
  - contradiction.
  - inversion Hw; subst; csel. destruct Hx as [(xc & xa & xb & Hx & _)|(vc' & Hc & Hx)]; [discriminate Hx|].
    assert (vc' = vc) by (eapply means_det; eassumption). subst. destruct (truthy vc); eauto.
  - destruct Hx as (ys & Hx & _). discriminate Hx.
  - destruct Hx as (ys & Hx & _). discriminate Hx.
  - inversion Hw; subst. destruct Hx as [(y & Hx & _)|Hx]; [discriminate Hx|eauto].
  - destruct Hx as (t & ns & vals & fr & Hx & _). discriminate Hx.
  - contradiction.
  - destruct Hx as (ys & Hx & _). discriminate Hx.
Qed.
Lemma data_not_apply v : data v -> is_apply v = false.
Proof. intros []; reflexivity. Qed.
Lemma res_not_apply E v x : mean E v -> ~ bare_cond E -> is_apply (tree E) = false -> res E x -> is_apply x = false.
Proof.
  intros Hw Hc Ht Hx. destruct E; try discriminate Ht; try (exfalso; apply Hc; exact Logic.I);
    (destruct Hx as [->|[Hx|Hx]]; [exact Ht|apply data_not_apply; eapply means_data; exact Hx|]); try contradiction.
  - destruct Hx as (xs & -> & _). reflexivity.
  - destruct Hx as (t & ns & vals & fr & -> & _). reflexivity.
  - destruct Hx as (xs & -> & _). reflexivity.
Qed.

(** ** One more parameter *)
Lemma evs_big x e0 s0 v e1 s1 : evs x e0 s0 v e1 s1 -> exists N, forall n, (N <= n)%nat -> ev n x e0 s0 = Ok (v, e1, s1).
Proof.
  intros [N HN]. exists N. intros n Hn. rewrite <- HN. apply yueval_mono; [exact Hn|]. rewrite HN. discriminate.
Qed.
Variable F : env.
(* names that need not be known yet; only [&name] stands for them *)
Variable late : text -> Prop.
Hypothesis Hf1 : forall k v, gives bs k v -> lookup F k = Some NBound \/ lookup F k = Some v \/ (late k /\ lookup F k = None).
Fixpoint fits (E : cexp) : Prop :=
  let all := fix all l := match l with [] => True | E :: r => fits E /\ all r end in
  match E with
  | CParam r a => late (s_txt a) -> r = RLate
  | CList l | CCall _ l _ _ | CPick _ l _ _ | CText l _ _ => all l
  | CCond c a b => fits c /\ fits a /\ fits b
  | CShow E _ _ => fits E
  | CInfix ast _ _ => forall t ns, constant_text ec parse ast t -> e_names ec (lstrip t) = Ok ns -> Forall (fun n => ~ late n) ns
  | _ => True
  end.
Definition all_fit := fix all l := match l with [] => True | E :: r => fits E /\ all r end.
Hypothesis Hf2 : forall n, free n -> lookup F n = None.
Definition full : Prop := forall k v, gives bs k v -> lookup F k = Some v.
Definition steps (E : cexp) : Prop := forall v x, mean E v -> res E x -> exists y, evs x F s y F s /\ res E y /\ (full -> y = v).
Lemma steps_list l : Forall steps l -> forall vs xs, Forall2 mean l vs -> Forall2 res l xs ->
  exists ys, evs (NList xs) F s (NList ys) F s /\ Forall2 res l ys /\ (full -> ys = vs).
Proof.
  intros Hl vs xs H1 H2.
  assert (H : exists ys, list_evals ec parse xs F s ys F s /\ Forall2 res l ys /\ (full -> ys = vs)).
  { revert vs xs H1 H2. induction Hl as [|E l HE _ IH]; intros vs xs H1 H2; inversion H1; inversion H2; subst.
    - exists []. repeat split; constructor.
    - match goal with Hm : means _ _ _ _ _ _ ?v, Hr : res _ ?x |- _ => destruct (HE v x Hm Hr) as (z & Hy1 & Hy2 & Hy3); pose proof (res_shape _ _ _ Hm Hy2) as Hsh end.
      match goal with Hm : Forall2 mean _ ?vs', Hr : Forall2 res _ ?xs' |- _ => destruct (IH vs' xs' Hm Hr) as (ys & Hys1 & Hys2 & Hys3) end.
      destruct (contributes_one z (shape_one z Hsh)) as [Hc Hn]. exists (z :: ys). split; [|split].
      + change (z :: ys) with ([z] ++ ys). eapply LE_cons; [exact Hy1|exact Hc|]. rewrite Hn. exact Hys1.
      + constructor; assumption.
      + intros Hfull. f_equal; auto. }
  destruct H as (ys & H3 & H4 & H5). exists ys. split; [apply list_spec; eauto|auto].
Qed.
Lemma step_data v : data v -> evs v F s v F s.
Proof. intros H. apply (data_steady ec parse v H). Qed.
Lemma steps_mean E v x : mean E v -> mean E x -> exists y, evs x F s y F s /\ res E y /\ (full -> y = v).
Proof.
  intros H1 H2. exists x. split; [apply step_data; eapply means_data; exact H2|]. split; [apply res_mean, H2|]. intros _. eapply means_det; eassumption.
Qed.

Lemma steps_param r a : fits (CParam r a) -> steps (CParam r a).
Proof.
  intros Hfit v x Hw [->|[Hx|[]]]; [|eapply steps_mean; eassumption]. inversion Hw as [|? ? ? H0| | | | | | | |]; subst.
  destruct (Hf1 _ _ H0) as [Hk|[Hk|[Hl Hk]]].
  3: { rewrite (Hfit Hl). exists (NVar RLate a). split; [|split; [left; reflexivity|intros Hfull; rewrite (Hfull _ _ H0) in Hk; discriminate Hk]].
       exists 1%nat. cbn [tree yueval eval_body]. unfold eval_var, ebind, get_env. rewrite Hk. reflexivity. }
  - exists (NVar r a). split; [|split; [left; reflexivity|]].
    + exists 1%nat. cbn [tree yueval eval_body]. unfold eval_var, ebind, get_env. rewrite Hk. reflexivity.
    + intros Hfull. rewrite (Hfull _ _ H0) in Hk. injection Hk as ->. destruct (data_unbound _ (bs_data _ _ H0)). reflexivity.
  - exists v. split; [|split; [right; left; exact Hw|reflexivity]].
    exists 1%nat. cbn [tree yueval eval_body]. unfold eval_var, ebind, get_env. rewrite Hk.
    destruct v; try reflexivity. destruct (data_unbound _ (bs_data _ _ H0)). reflexivity.
Qed.
Lemma steps_CList l : Forall steps l -> steps (CList l).
Proof.
  intros Hl v x Hw Hx. apply res_list_inv in Hx as (xs & -> & Hx). apply means_list_inv in Hw as (vs & -> & Hw).
  destruct (steps_list l Hl vs xs Hw Hx) as (ys & H1 & H2 & H3). exists (NList ys). split; [exact H1|]. split.
  - right. right. exists ys. split; [reflexivity|]. apply res2_spec, H2.
  - intros Hfull. rewrite (H3 Hfull). reflexivity.
Qed.
Lemma steps_cond c a b : steps c -> steps a -> steps b -> steps (CCond c a b).
Proof.
  intros Sc Sa Sb v x Hw Hx. inversion Hw as [| | |? ? ? vc va vb vv Mc Ma Mb Ms| | | | | |]; subst; csel.
  assert (Sab : steps (if truthy vc then a else b)) by (destruct (truthy vc); assumption).
  assert (Mab : mean (if truthy vc then a else b) (if truthy vc then va else vb)) by (destruct (truthy vc); assumption).
  assert (Hch : forall y, res (if truthy vc then a else b) y -> res (CCond c a b) y).
  { intros y Hy. right. right. right. exists vc. auto. }
  destruct Hx as [->|[Hx|[(xc & xa & xb & -> & Hc & Ha & Hb)|(vc' & Hc & Hx)]]]; [|eapply steps_mean; eassumption| |].
  - destruct (Sc vc _ Mc (res_tree c)) as (yc & H1 & H2 & H3).
    destruct (is_term yc) eqn:Et.
    + assert (yc = vc) by (eapply res_term; eassumption). subst yc.
      destruct (Sab _ _ Mab (res_tree _)) as (y & H4 & H5 & H6). exists y. split; [|auto].
      apply evs_big in H1 as (N1 & H1). apply evs_big in H4 as (N2 & H4). exists (S (N1 + N2)).
      cbn [yueval eval_body tree]. unfold ebind. rewrite H1 by lia. rewrite Et.
      replace (if truthy vc then tree a else tree b) with (tree (if truthy vc then a else b)) by (destruct (truthy vc); reflexivity).
      apply H4. lia.
    + exists (NCondClosure yc (tree a) (tree b)). split; [|split].
      * apply evs_big in H1 as (N1 & H1). exists (S N1). cbn [yueval eval_body tree]. unfold ebind. rewrite H1 by lia. rewrite Et. reflexivity.
      * right. right. left. exists yc, (tree a), (tree b). auto using res_tree.
      * intros Hfull. exfalso. rewrite (H3 Hfull), (data_term vc (means_data _ _ Mc)) in Et. discriminate Et.
  - destruct (Sc vc _ Mc Hc) as (yc & H1 & H2 & H3).
    destruct (is_term yc) eqn:Et.
    + assert (yc = vc) by (eapply res_term; eassumption). subst yc.
      assert (Hab : res (if truthy vc then a else b) (if truthy vc then xa else xb)) by (destruct (truthy vc); assumption).
      destruct (Sab _ _ Mab Hab) as (y & H4 & H5 & H6). destruct (Sab _ _ Mab H5) as (z & H7 & H8 & H9). exists z. split; [|auto].
      apply evs_big in H1 as (N1 & H1). apply evs_big in H4 as (N2 & H4). apply evs_big in H7 as (N3 & H7). exists (S (N1 + N2 + N3)).
      cbn [yueval eval_body]. unfold ebind. rewrite H1 by lia. rewrite Et. rewrite H4 by lia. apply H7. lia.
    + destruct (Sa _ _ Ma Ha) as (ya & A1 & A2 & _). destruct (Sb _ _ Mb Hb) as (yb & B1 & B2 & _).
      exists (NCondClosure yc ya yb). split; [|split].
      * apply evs_big in H1 as (N1 & H1). apply evs_big in A1 as (N2 & A1). apply evs_big in B1 as (N3 & B1). exists (S (N1 + N2 + N3)).
        cbn [yueval eval_body]. unfold ebind. rewrite H1 by lia. rewrite Et. rewrite A1 by lia. rewrite B1 by lia. reflexivity.
      * right. right. left. exists yc, ya, yb. auto.
      * intros Hfull. exfalso. rewrite (H3 Hfull), (data_term vc (means_data _ _ Mc)) in Et. discriminate Et.
  - assert (vc' = vc) by (eapply means_det; eassumption). subst vc'.
    destruct (Sab _ _ Mab Hx) as (y & H4 & H5 & H6). exists y. auto.
Qed.
Lemma steps_CCall g l file pos : Forall steps l -> steps (CCall g l file pos).
Proof.
  intros Hl v x Hw Hx. inversion Hw as [| | | |? ? ? ? vs ? Hvs Hg Hfn Hd| | | | |]; subst.
  assert (Go : forall fn xs, evs fn F s (NBuiltin g) F s -> Forall2 res l xs ->
    exists y, evs (NApply fn xs [] file pos) F s y F s /\ res (CCall g l file pos) y /\ (full -> y = v)).
  { intros fn xs Hf Hxs. destruct (steps_list l Hl vs xs Hvs Hxs) as (ys & H1 & H2 & H3).
    destruct Hfn as (h & w & Hh & Hr & ->).
    destruct (is_term (NList ys)) eqn:Et.
    - assert (ys = vs) by (eapply res_terms; eassumption). subst ys. exists (builtin_result w). split; [|split; [apply res_mean, Hw|reflexivity]].
      apply evals_fin. apply (apply_fin ec parse fn xs [] file pos F s _ F s _ F s _ Hf H1). split; [discriminate|]. exists O.
      unfold apply_rest. cbn [as_closure named_unexpected]. unfold apply_builtin, find_builtin, ebind, lift_m, bind, get_st, ret. rewrite Hh.
      unfold apply_function. rewrite Et. unfold ebind, lift_m. rewrite Hr. reflexivity.
    - exists (NApply (NBuiltin g) ys [] file pos). split; [|split].
      + apply evals_fin. apply (apply_fin ec parse fn xs [] file pos F s _ F s _ F s _ Hf H1). split; [discriminate|]. exists O.
        unfold apply_rest. cbn [as_closure named_unexpected]. unfold apply_builtin, find_builtin, ebind, lift_m, bind, get_st, ret. rewrite Hh.
        unfold apply_function. rewrite Et. replace (detect_deadlock (NList ys)) with false; [reflexivity|].
        symmetry. apply (res_alive (CList l) (NList vs)); [constructor; exact Hvs|]. right. right. exists ys. split; [reflexivity|]. apply res2_spec, H2.
      + right. right. exists ys. split; [reflexivity|]. apply res2_spec, H2.
      + intros Hfull. exfalso. rewrite (H3 Hfull) in Et. rewrite (data_term (NList vs)) in Et; [discriminate Et|]. constructor. eapply mean_list_data, Hvs. }
  destruct Hx as [->|[Hx|(xs & -> & Hx)]]; [|eapply steps_mean; eassumption|].
  - apply Go; [|apply res_trees]. destruct Hfn as (h & w & Hh & _). exists 1%nat. cbn [yueval eval_body]. unfold eval_var, ebind, get_env.
    rewrite (Hf2 _ Hg). unfold find_builtin, lift_m, bind, get_st, ret. rewrite Hh. reflexivity.
  - apply Go; [|apply res2_spec, Hx]. exists 1%nat. reflexivity.
Qed.
Lemma steps_CPick z l file pos : Forall steps l -> steps (CPick z l file pos).
Proof.
  intros Hl v x Hw Hx. inversion Hw as [| | | | |? ? ? ? vs m ? Hvs Hi He Hd| | | |]; subst.
  assert (Go : forall xs, Forall2 res l xs ->
    exists y, evs (NApply (NInt z) xs [] file pos) F s y F s /\ res (CPick z l file pos) y /\ (full -> y = v)).
  { intros xs Hxs. destruct (steps_list l Hl vs xs Hvs Hxs) as (ys & H1 & H2 & H3).
    assert (Hz : evs (NInt z) F s (NInt z) F s) by (exists 1%nat; reflexivity).
    destruct (is_term (NList ys)) eqn:Et.
    - assert (ys = vs) by (eapply res_terms; eassumption). subst ys. exists v. split; [|split; [apply res_mean, Hw|reflexivity]].
      eapply subscript_selects; eassumption.
    - exists (NApply (NInt z) ys [] file pos). split; [|split].
      + apply evals_fin. apply (apply_fin ec parse _ xs [] file pos F s _ F s _ F s _ Hz H1). split; [discriminate|]. exists O.
        unfold apply_rest. cbn [as_closure named_unexpected]. unfold apply_number. rewrite Et. destruct ys; [discriminate Et|reflexivity].
      + right. right. exists ys. split; [reflexivity|]. apply res2_spec, H2.
      + intros Hfull. exfalso. rewrite (H3 Hfull) in Et. rewrite (data_term (NList vs)) in Et; [discriminate Et|]. constructor. eapply mean_list_data, Hvs. }
  destruct Hx as [->|[Hx|(xs & -> & Hx)]]; [|eapply steps_mean; eassumption|].
  - apply Go, res_trees.
  - apply Go, res2_spec, Hx.
Qed.
Lemma value_text_term v u : value_text v u -> is_term v = true.
Proof. intros []; reflexivity. Qed.
Lemma steps_CShow E file pos : steps E -> steps (CShow E file pos).
Proof.
  intros SE v x Hw Hx. inversion Hw as [| | | | | |? ? ? ? u ME Hu| | |]; subst.
  assert (Hth : forall y, res E y -> res (CShow E file pos) y) by (intros y Hy; right; right; right; exact Hy).
  assert (Go : forall x, res E x -> exists y, evs (NApply x [] [] file pos) F s y F s /\ res (CShow E file pos) y /\ (full -> y = v)).
  { intros z Hz. destruct (SE v z ME Hz) as (y & H1 & H2 & H3).
    assert (Hkeep : is_term y = false -> gives_r (fun n => apply_rest ec parse n (call_of z) [] file pos y []) F s (Ok (NApply y [] [] file pos, F, s)) ->
      exists y, evs (NApply z [] [] file pos) F s y F s /\ res (CShow E file pos) y /\ (full -> y = v)).
    { intros Et Hr. exists (NApply y [] [] file pos). split; [|split].
      - apply evals_fin. apply (apply_fin ec parse z [] [] file pos F s _ F s _ F s _ H1 (list_nil ec parse F s)). exact Hr.
      - right. right. left. exists y. auto.
      - intros Hfull. exfalso. rewrite (H3 Hfull), (value_text_term _ _ Hu) in Et. discriminate Et. }
    assert (Hval : is_term y = true -> exists y, evs (NApply z [] [] file pos) F s y F s /\ res (CShow E file pos) y /\ (full -> y = v)).
    { intros Et. assert (y = v) by (eapply res_term; eassumption). subst y. exists v. split; [|split; [apply res_mean, Hw|reflexivity]].
      apply apply_value; [exists u; exact Hu|exact H1]. }
    assert (Hagain : (forall n, apply_rest ec parse n (call_of z) [] file pos y [] = ev n y) ->
      exists y, evs (NApply z [] [] file pos) F s y F s /\ res (CShow E file pos) y /\ (full -> y = v)).
    { intros Hr. destruct (SE v y ME H2) as (y2 & H4 & H5 & H6). exists y2. split; [|auto].
      apply evals_fin. apply (apply_fin ec parse z [] [] file pos F s _ F s _ F s _ H1 (list_nil ec parse F s)).
      apply evals_fin in H4. destruct H4 as [H4 [n Hn]]. split; [exact H4|]. exists n. rewrite Hr. exact Hn. }
    pose proof (res_shape E v y ME H2) as Hsh.
    destruct y; try contradiction Hsh; try (apply Hval; reflexivity); try (apply Hagain; reflexivity);
      try (apply Hkeep; [reflexivity|]; split; [discriminate|]; exists O; reflexivity).
    destruct (res_not_list E v l ME H2) as (vs & ->). inversion Hu. }
  destruct Hx as [->|[Hx|[(y & -> & Hy)|Hx]]]; [|eapply steps_mean; eassumption| |].
  - apply Go, res_tree.
  - apply Go, Hy.
  - destruct (SE v x ME Hx) as (y & H1 & H2 & H3). exists y. auto.
Qed.

Definition open_binding (b : text * node) : text * node := (fst b, NVar (RList []) (raw (fst b))).
Lemma picks_names ns vals n : picks free bs ns vals -> In n (names vals) -> In n ns.
Proof. induction 1 as [|m v r l _ _ _ IH|m r l _ _ IH]; cbn [names map fst In]; intros H; [exact H|destruct H as [H|H]; auto|auto]. Qed.
Lemma infix_frame_picks ns vals : picks free bs ns vals -> Forall (fun n => ~ late n) ns -> infix_frame F ns = map open_binding vals.
Proof.
  intros H Hnl. unfold infix_frame.
  assert (K : forall acc, (forall n, In n (names acc) -> ~ In n (names vals)) ->
    fold_left (fun f n => match lookup F n with Some _ => frame_set n (NVar (RList []) (raw n)) f | None => f end) ns acc = acc ++ map open_binding vals).
  { induction H as [|n v r l Hv Hn Hr IH|n r l Hf _ IH]; intros acc Ha; cbn [fold_left]; try (inversion Hnl as [|? ? Hnl1 Hnl2]; subst; specialize (IH Hnl2)).
    - rewrite app_nil_r. reflexivity.
    - assert (Hk : exists w, lookup F n = Some w) by (destruct (Hf1 _ _ Hv) as [Hk|[Hk|[Hk _]]]; [rewrite Hk; eauto|rewrite Hk; eauto|contradiction]).
      destruct Hk as (w & ->). rewrite IH.
      + rewrite frame_set_fresh; [rewrite <- app_assoc; reflexivity|]. intros Hin. apply (Ha n Hin). left. reflexivity.
      + intros m Hm. rewrite frame_set_fresh in Hm by (intros Hin; apply (Ha n Hin); left; reflexivity).
        unfold names in Hm. rewrite map_app in Hm. apply in_app_or in Hm as [Hm|[<-|[]]].
        * intros Hl. apply (Ha m Hm). right. exact Hl.
        * intros Hl. apply Hn. eapply picks_names; eassumption.
    - rewrite (Hf2 _ Hf). apply IH. exact Ha. }
  rewrite K; [reflexivity|]. intros n [].
Qed.
Lemma picks_gives ns vals : picks free bs ns vals -> Forall (fun b => gives bs (fst b) (snd b)) vals.
Proof. induction 1; [constructor| |assumption]. constructor; assumption. Qed.
Lemma local_steps vals fr : Forall (fun b => ~ late (fst b)) vals -> Forall (fun b => gives bs (fst b) (snd b)) vals -> Forall2 binding_state vals fr ->
  exists fr' b N, (forall n, (N <= n)%nat -> eval_local (ev n) fr F s = Ok (fr', b, F, s)) /\ Forall2 binding_state vals fr' /\
    (b = true -> fr' = vals) /\ (full -> b = true).
Proof.
  intros Hnl Hg H. induction H as [|[n v] [n' x] vals fr [Hn Hx] _ IH].
  - exists [], true, O. repeat split; auto.
  - inversion Hg as [|? ? G1 G2]; inversion Hnl as [|? ? L1 L2]; subst. cbn [fst snd] in *. subst n'. destruct (IH L2 G2) as (fr' & b & N1 & H1 & H2 & H3 & H4).
    pose proof (bs_data _ _ G1) as Dv.
    assert (Hy : exists y, evs x F s y F s /\ binding_state (n, v) (n, y) /\
      (is_term y = true -> y = v) /\ (full -> y = v)).
    { destruct Hx as [-> | ->].
      - destruct (Hf1 _ _ G1) as [Hk|[Hk|[Hk _]]]; [| |contradiction].
        + exists (NVar (RList []) (raw n)). split; [|split; [split; [reflexivity|left; reflexivity]|split; [discriminate|]]].
          * exists 1%nat. cbn [yueval eval_body]. unfold eval_var, ebind, get_env. cbn [raw s_txt]. rewrite Hk. reflexivity.
          * intros Hfull. rewrite (Hfull _ _ G1) in Hk. injection Hk as ->. destruct (data_unbound _ Dv). reflexivity.
        + exists v. split; [|split; [split; [reflexivity|right; reflexivity]|auto]].
          exists 1%nat. cbn [yueval eval_body]. unfold eval_var, ebind, get_env. cbn [raw s_txt]. rewrite Hk.
          destruct v; try reflexivity. destruct (data_unbound _ Dv). reflexivity.
      - exists v. split; [apply step_data, Dv|split; [split; [reflexivity|right; reflexivity]|auto]]. }
    destruct Hy as (y & Y1 & Y2 & Y3 & Y4). apply evs_big in Y1 as (N2 & Y1).
    exists ((n, y) :: fr'), (is_term y && b), (N1 + N2)%nat. split; [|split; [constructor; assumption|split]].
    + intros i Hi. cbn [eval_local]. unfold ebind. rewrite Y1, H1 by lia. reflexivity.
    + intros Hb. apply andb_true_iff in Hb as [Hb1 Hb2]. rewrite (Y3 Hb1), (H3 Hb2). reflexivity.
    + intros Hfull. rewrite (Y4 Hfull), (data_term v Dv), (H4 Hfull). reflexivity.
Qed.
Lemma picks_late ns vals : picks free bs ns vals -> Forall (fun n => ~ late n) ns -> Forall (fun b => ~ late (fst b)) vals.
Proof. induction 1; intros Hl; [constructor| |]; inversion Hl; subst; [constructor; [assumption|auto]|auto]. Qed.
Lemma steps_CInfix ast file pos : fits (CInfix ast file pos) -> steps (CInfix ast file pos).
Proof.
  intros Hfit v x Hw Hx. inversion Hw as [| | | | | | |? ? ? t ns vals w Ht Hns Hp Hi Hd| |]; subst. specialize (Hfit t ns Ht Hns).
  assert (Go : forall fr, Forall2 binding_state vals fr ->
    exists y, evs (NInfixClosure t fr file pos) F s y F s /\ res (CInfix ast file pos) y /\ (full -> y = const_result w)).
  { intros fr Hfr. destruct (local_steps vals fr (picks_late _ _ Hp Hfit) (picks_gives _ _ Hp) Hfr) as (fr' & b & N & H1 & H2 & H3 & H4).
    destruct b.
    - rewrite (H3 eq_refl) in H1. exists (const_result w). split; [|split; [apply res_mean, Hw|reflexivity]].
      exists (S N). cbn [yueval eval_body]. unfold ebind at 1. rewrite H1 by lia. unfold lift_r, lift_m, lift, ebind. rewrite Hi. reflexivity.
    - exists (NInfixClosure t fr' file pos). split; [|split].
      + exists (S N). cbn [yueval eval_body]. unfold ebind at 1. rewrite H1 by lia. reflexivity.
      + right. right. exists t, ns, vals, fr'. repeat split; auto; apply Ht.
      + intros Hfull. specialize (H4 Hfull). discriminate H4. }
  destruct Hx as [->|[Hx|(t' & ns' & vals' & fr & -> & Ht' & Hns' & Hp' & Hfr)]]; [|eapply steps_mean; eassumption|].
  - destruct (Go (map open_binding vals)) as (y & H1 & H2 & H3).
    { clear. induction vals as [|b l IH]; constructor; [|exact IH]. split; [reflexivity|left; reflexivity]. }
    exists y. split; [|auto]. destruct (Ht F s) as (z & Hz & Ez).
    apply evs_big in Hz as (N1 & Hz). apply evs_big in H1 as (N2 & H1). exists (S (N1 + N2)). cbn [tree yueval eval_body].
    unfold ebind at 1. rewrite Hz by lia. rewrite Ez. unfold lift_r, lift_m, lift, ebind. rewrite Hns. unfold get_env.
    rewrite (infix_frame_picks ns vals Hp Hfit). apply H1. lia.
  - assert (t' = t) by (eapply constant_det; eassumption). subst t'. assert (ns' = ns) by congruence. subst ns'.
    assert (vals' = vals) by (eapply picks_det; eassumption). subst vals'. apply Go, Hfr.
Qed.

(** texts *)
Lemma shape_piece y : shape y -> piece y y.
Proof. intros H. apply PC_value. destruct y; try contradiction H; exact Logic.I. Qed.
Lemma shape_comment y : shape y -> y <> NComment.
Proof. intros H ->. exact H. Qed.
Lemma as_applied_is ind x y : as_applied ind x y = if is_apply x then NTrim y (ind_text ind) else y.
Proof. destruct x; reflexivity. Qed.
Lemma text_first l : Forall steps l -> forall vs, Forall2 mean l vs -> forall ind,
  exists ys, block ec parse ind (map tree l) F s (pieces ind (map tree l) ys) F s /\ Forall2 res l ys /\ (full -> ys = vs).
Proof.
  induction 1 as [|E l HE _ IH]; intros vs Hm ind; inversion Hm as [|? v ? vs' M1 M2]; subst.
  - exists []. repeat split; constructor.
  - destruct (HE v (tree E) M1 (res_tree E)) as (y & H1 & H2 & H3). pose proof (res_shape E _ _ M1 H2) as Sy. pose proof (tree_shape E _ M1) as St.
    destruct (IH vs' M2 (indent_then ind (tree E))) as (ys & H4 & H5 & H6). exists (y :: ys). split; [|split; [constructor; assumption|intros Hfull; f_equal; auto]].
    cbn [map pieces].
    assert (Ep : (if is_apply (tree E) then NTrim y (ind_text ind) :: pieces IndFalse (map tree l) ys else y :: pieces (indent_then ind (tree E)) (map tree l) ys) =
      as_applied ind (tree E) y :: pieces (indent_then ind (tree E)) (map tree l) ys).
    { rewrite as_applied_is. destruct (tree E); reflexivity. }
    rewrite Ep. eapply BL_value; [apply shape_comment, St|exact H1|apply shape_piece, Sy|exact H4].
Qed.
Lemma text_again l : Forall steps l -> Forall (fun E => ~ bare_cond E) l -> forall vs xs, Forall2 mean l vs -> Forall2 res l xs -> forall ind ind',
  exists ys, block ec parse ind' (pieces ind (map tree l) xs) F s (pieces ind (map tree l) ys) F s /\ Forall2 res l ys /\ (full -> ys = vs).
Proof.
  induction 1 as [|E l HE _ IH]; intros Hc vs xs Hm Hr ind ind'; inversion Hr as [|E1 x l1 xs' R1 R2]; inversion Hm as [|E2 v l2 vs' M1 M2]; inversion Hc as [|E3 l3 C1 C2]; subst.
  - exists []. repeat split; constructor.
  - destruct (HE v x M1 R1) as (y & H1 & H2 & H3). pose proof (res_shape E _ _ M1 H2) as Sy. pose proof (res_shape E _ _ M1 R1) as Sx.
    cbn [map pieces]. destruct (is_apply (tree E)) eqn:Ea.
    + destruct (IH C2 vs' xs' M2 R2 IndFalse (indent_then ind' (NTrim x (ind_text ind)))) as (ys & H4 & H5 & H6).
      exists (y :: ys). split; [|split; [constructor; assumption|intros Hfull; f_equal; auto]]. cbn [pieces]; rewrite ?Ea.
      change (NTrim y (ind_text ind)) with (as_applied ind' (NTrim x (ind_text ind)) (NTrim y (ind_text ind))).
      eapply BL_value; [discriminate| |apply PC_value; exact Logic.I|exact H4].
      destruct H1 as [n Hn]. exists (S n). cbn [yueval eval_body]. unfold ebind. rewrite Hn. reflexivity.
    + pose proof (res_not_apply E v x M1 C1 Ea R1) as Eax.
      destruct (IH C2 vs' xs' M2 R2 (indent_then ind (tree E)) (indent_then ind' x)) as (ys & H4 & H5 & H6).
      exists (y :: ys). split; [|split; [constructor; assumption|intros Hfull; f_equal; auto]]. cbn [pieces]; rewrite ?Ea.
      replace (y :: pieces (indent_then ind (tree E)) (map tree l) ys) with (as_applied ind' x y :: pieces (indent_then ind (tree E)) (map tree l) ys)
        by (rewrite as_applied_is, Eax; reflexivity).
      eapply BL_value; [apply shape_comment, Sx|exact H1|apply shape_piece, Sy|exact H4].
Qed.
Lemma pieces_term xs vs : List.length xs = List.length vs -> forall ind, forallb is_term (pieces ind xs vs) = forallb is_term vs.
Proof.
  revert vs. induction xs as [|x xs IH]; intros [|v vs] Hl ind; try discriminate Hl; [reflexivity|]. injection Hl as Hl. cbn [pieces].
  destruct (is_apply x); cbn [forallb is_term]; rewrite IH by exact Hl; reflexivity.
Qed.
Lemma steps_CText l sq q : Forall steps l -> steps (CText l sq q).
Proof.
  intros Hl v x Hw Hx. inversion Hw as [| | | | | | | | |? ? ? vs t Hvs Hc Ht]; subst.
  assert (Go : forall x, (exists ys, block ec parse (IndStr []) x F s (pieces (IndStr []) (map tree l) ys) F s /\ Forall2 res l ys /\ (full -> ys = vs)) ->
    exists y, evs (NT x (IndStr [])) F s y F s /\ res (CText l sq q) y /\ (full -> y = NRaw t)).
  { intros z (ys & H1 & H2 & H3). set (ws := pieces (IndStr []) (map tree l) ys) in *.
    assert (Hlen : List.length (map tree l) = List.length ys) by (rewrite map_length; clear -H2; induction H2; cbn [List.length]; congruence).
    assert (Htv : ys = vs -> NRaw (plain ec (NT ws (IndStr []))) = NRaw t).
    { intros ->. f_equal. symmetry. apply written_plain in Ht. exact Ht. }
    exists (tval ws). split; [apply text_spec; [exact Hbr|]; exists ws; split; [exact H1|reflexivity]|].
    unfold tval. destruct (is_term (NT ws (IndStr []))) eqn:Et.
    - assert (ys = vs). { eapply res_terms; [exact Hvs|exact H2|]. cbn [is_term] in Et. unfold ws in Et. rewrite pieces_term in Et by exact Hlen. exact Et. }
      rewrite (Htv H). split; [apply res_mean, Hw|reflexivity].
    - split.
      + right. right. exists ys. split; [reflexivity|]. split; [exact Et|apply res2_spec, H2].
      + intros Hfull. exfalso. cbn [is_term] in Et. unfold ws in Et. rewrite pieces_term, (H3 Hfull) in Et by exact Hlen.
        pose proof (data_term (NList vs) (DA_list vs (mean_list_data _ _ Hvs))) as Ht2. cbn [is_term] in Ht2. congruence. }
  destruct Hx as [->|[Hx|(xs & -> & _ & Hx)]]; [|eapply steps_mean; eassumption|].
  - destruct (Go (map tree l) (text_first l Hl vs Hvs (IndStr []))) as (y & [n Hn] & H2). exists y. split; [|exact H2].
    exists (S n). exact Hn.
  - apply Go. apply res2_spec in Hx. apply text_again; assumption.
Qed.
Lemma all_fit_steps l : Forall (fun E => fits E -> steps E) l -> all_fit l -> Forall steps l.
Proof. induction 1 as [|E l HE _ IH]; [constructor|]. intros [F1 F2]. constructor; auto. Qed.
Lemma all_steps_late E : fits E -> steps E.
Proof.
  induction E using cexp_nest; intros Hfit.
  - intros w x Hw [->|[Hx|[]]]; [|eapply steps_mean; eassumption]. inversion Hw; subst. cbn [tree]. eapply steps_mean; eassumption.
  - apply steps_param, Hfit.
  - apply steps_CList, all_fit_steps; assumption.
  - destruct Hfit as (F1 & F2 & F3). apply steps_cond; auto.
  - apply steps_CCall, all_fit_steps; assumption.
  - apply steps_CPick, all_fit_steps; assumption.
  - apply steps_CShow. apply IHE, Hfit.
  - apply steps_CInfix, Hfit.
  - intros w x Hw [->|[Hx|[]]]; [|eapply steps_mean; eassumption]. inversion Hw; subst. cbn [tree]. eapply steps_mean; eassumption.
  - apply steps_CText, all_fit_steps; assumption.
Qed.
Hypothesis Hno : forall k, ~ late k.
Lemma all_fits E : fits E.
Proof.
  assert (K : forall l, Forall fits l -> all_fit l) by (induction 1; cbn; auto).
  induction E using cexp_nest; cbn [fits]; try (apply K; assumption); auto.
  - intros H. destruct (Hno _ H).
  - intros t ns _ _. apply Forall_forall. intros n _. apply Hno.
Qed.

(** ** What waits for a parameter *)
Variable p : text.
Fixpoint waits (E : cexp) : Prop :=
  let some := fix some l := match l with [] => False | E :: r => waits E \/ some r end in
  match E with
  | CParam _ a => s_txt a = p
  | CList l | CCall _ l _ _ | CPick _ l _ _ => some l
  | CCond c _ _ => waits c
  | CInfix ast _ _ => exists t ns, constant_text ec parse ast t /\ e_names ec (lstrip t) = Ok ns /\ In p ns
  | _ => False
  end.
Definition some_waits := fix some l := match l with [] => False | E :: r => waits E \/ some r end.
Hypothesis Hp : lookup F p = Some NBound.
Definition stuck (E : cexp) : Prop := forall v, mean E v -> waits E -> exists y, evs (tree E) F s y F s /\ is_term y = false.
Lemma stuck_list l : Forall stuck l -> forall vs, Forall2 mean l vs -> some_waits l ->
  exists ys, evs (NList (map tree l)) F s (NList ys) F s /\ Forall2 res l ys /\ forallb is_term ys = false.
Proof.
  intros Hl vs H1 Hw.
  assert (H : exists ys, list_evals ec parse (map tree l) F s ys F s /\ Forall2 res l ys /\ (some_waits l -> forallb is_term ys = false)).
  { clear Hw. revert vs H1. induction Hl as [|E l HE _ IH]; intros vs H1; inversion H1 as [|? v ? vs' M1 M2]; subst.
    - exists []. split; [constructor|]. split; [constructor|intros []].
    - destruct (all_steps_late E (all_fits E) v (tree E) M1 (res_tree E)) as (z & Y1 & Y2 & _). pose proof (res_shape _ _ _ M1 Y2) as Hsh.
      destruct (IH vs' M2) as (ys & Z1 & Z2 & Z3). destruct (contributes_one z (shape_one z Hsh)) as [Hc Hn]. exists (z :: ys). split; [|split].
      + cbn [map]. change (z :: ys) with ([z] ++ ys). eapply LE_cons; [exact Y1|exact Hc|]. rewrite Hn. exact Z1.
      + constructor; assumption.
      + intros [Hw|Hw]; cbn [forallb].
        * destruct (HE v M1 Hw) as (y & W1 & W2). destruct (evals_det _ _ _ _ _ _ _ _ _ _ _ W1 Y1) as (-> & _ & _). rewrite W2. reflexivity.
        * rewrite (Z3 Hw). apply andb_false_r. }
  destruct H as (ys & H3 & H4 & H5). exists ys. split; [apply list_spec; eauto|auto].
Qed.
Lemma stuck_local vals n fr b : In p (names vals) -> eval_local (ev n) (map open_binding vals) F s = Ok (fr, b, F, s) -> b = false.
Proof.
  revert fr b. induction vals as [|[k v] vals IH]; intros fr b Hin; [destruct Hin|]. cbn [map open_binding fst eval_local]. unfold ebind at 1.
  destruct n as [|n]; [discriminate|]. change (ev (S n) (NVar (RList []) (raw k)) F s) with (eval_body ec (ev n) parse (NVar (RList []) (raw k)) F s).
  destruct (eval_body ec (ev n) parse (NVar (RList []) (raw k)) F s) as [[[y e1] s1]| |] eqn:Ey; try discriminate.
  assert (e1 = F /\ s1 = s) as [-> ->].
  { cbn [eval_body] in Ey. unfold eval_var, ebind, get_env in Ey. cbn [raw s_txt] in Ey. destruct (lookup F k) as [w|].
    - destruct w; injection Ey as _ <- <-; split; reflexivity.
    - unfold find_builtin, lift_m, bind, get_st, ret in Ey. destruct (e_builtin ec (y_script s) k); [injection Ey as _ <- <-; split; reflexivity|].
      destruct (is_special k); [injection Ey as _ <- <-; split; reflexivity|]. destruct (has_char 45 k); injection Ey as _ <- <-; split; reflexivity. }
  unfold ebind. destruct (eval_local (ev (S n)) (map open_binding vals) F s) as [[[[fr' b'] e2] s2]| |] eqn:El; try discriminate.
  intros E. injection E as <- <- -> ->. destruct Hin as [Hk|Hin].
  - cbn [fst] in Hk. subst k. cbn [eval_body] in Ey. unfold eval_var, ebind, get_env in Ey. cbn [raw s_txt] in Ey. rewrite Hp in Ey. injection Ey as <-. reflexivity.
  - rewrite (IH fr' b' Hin eq_refl). apply andb_false_r.
Qed.
Lemma all_stuck_late E : stuck E.
Proof.
  induction E using cexp_nest; intros w Hw Hn; try contradiction Hn.
  - exists (NVar r a). split; [|reflexivity]. exists 1%nat. cbn [tree yueval eval_body]. unfold eval_var, ebind, get_env. cbn [waits] in Hn. rewrite Hn, Hp. reflexivity.
  - apply means_list_inv in Hw as (vs & -> & Hw). destruct (stuck_list l H vs Hw Hn) as (ys & H1 & _ & H3). exists (NList ys). auto.
  - inversion Hw as [| | |? ? ? vc va vb vv Mc Ma Mb Ms| | | | | |]; subst. destruct (IHE1 vc Mc Hn) as (y & [n Hy] & Ht).
    exists (NCondClosure y (tree E2) (tree E3)). split; [|reflexivity]. exists (S n). cbn [tree yueval eval_body]. unfold ebind. rewrite Hy, Ht. reflexivity.
  - inversion Hw as [| | | |? ? ? ? vs ? Hvs Hg Hfn Hd| | | | |]; subst. destruct (stuck_list l H vs Hvs Hn) as (ys & H1 & H2 & H3).
    destruct Hfn as (h & u & Hh & Hr & ->).
    assert (Hf : evs (NVar (RList []) f) F s (NBuiltin f) F s).
    { exists 1%nat. cbn [yueval eval_body]. unfold eval_var, ebind, get_env. rewrite (Hf2 _ Hg). unfold find_builtin, lift_m, bind, get_st, ret. rewrite Hh. reflexivity. }
    exists (NApply (NBuiltin f) ys [] file pos). split; [|reflexivity].
    apply evals_fin. apply (apply_fin ec parse _ (map tree l) [] file pos F s _ F s _ F s _ Hf H1). split; [discriminate|]. exists O.
    unfold apply_rest. cbn [as_closure named_unexpected]. unfold apply_builtin, find_builtin, ebind, lift_m, bind, get_st, ret. rewrite Hh.
    unfold apply_function. cbn [is_term]. rewrite H3. replace (detect_deadlock (NList ys)) with false; [reflexivity|].
    symmetry. apply (res_alive (CList l) (NList vs)); [constructor; exact Hvs|]. right. right. exists ys. split; [reflexivity|]. apply res2_spec, H2.
  - inversion Hw as [| | | | |? ? ? ? vs m ? Hvs Hi He Hd| | | |]; subst. destruct (stuck_list l H vs Hvs Hn) as (ys & H1 & H2 & H3).
    assert (Hz : evs (NInt z) F s (NInt z) F s) by (exists 1%nat; reflexivity).
    exists (NApply (NInt z) ys [] file pos). split; [|reflexivity].
    apply evals_fin. apply (apply_fin ec parse _ (map tree l) [] file pos F s _ F s _ F s _ Hz H1). split; [discriminate|]. exists O.
    unfold apply_rest. cbn [as_closure named_unexpected]. unfold apply_number. cbn [is_term]. rewrite H3. destruct ys; [discriminate H3|reflexivity].
  - inversion Hw as [| | | | | | |? ? ? t ns vals u Ht Hns Hpk Hi Hd| |]; subst. destruct Hn as (t' & ns' & Ht' & Hns' & Hin).
    assert (t' = t) by (eapply constant_det; eassumption). subst t'. assert (ns' = ns) by congruence. subst ns'.
    destruct (local_steps vals (map open_binding vals) (picks_late _ _ Hpk (all_fits (CInfix _ None 0%Z) t ns Ht Hns)) (picks_gives _ _ Hpk)) as (fr' & b & N & H1 & H2 & H3 & H4).
    { clear. induction vals as [|b l IH]; constructor; [|exact IH]. split; [reflexivity|left; reflexivity]. }
    assert (Hnv : In p (names vals)).
    { clear -Hpk Hin Hp Hf2. induction Hpk as [|n v r l Hv Hn _ IH|n r l Hfr _ IH]; [destruct Hin| |].
      - destruct Hin as [->|Hin]; [left; reflexivity|right; auto].
      - destruct Hin as [->|Hin]; [rewrite (Hf2 _ Hfr) in Hp; discriminate Hp|auto]. }
    pose proof (stuck_local vals N fr' b Hnv (H1 N (le_n N))) as ->.
    exists (NInfixClosure t fr' file pos). split; [|reflexivity]. destruct (Ht F s) as (z & Hz & Ez).
    apply evs_big in Hz as (N1 & Hz). exists (S (S (N1 + N))). cbn [tree yueval]. cbn [eval_body].
    unfold ebind at 1. change (eval_body ec (ev (N1 + N)) parse) with (ev (S (N1 + N))). rewrite Hz by lia. rewrite Ez. unfold lift_r, lift_m, lift, ebind. rewrite Hns. unfold get_env.
    rewrite (infix_frame_picks ns vals Hpk (all_fits (CInfix _ None 0%Z) t ns Ht Hns)). cbn [yueval eval_body]. unfold ebind. rewrite H1 by lia. reflexivity.
Qed.
End Core.
(** the same without late names *)
Section Plain.
Variables (ec : ectx) (parse : text -> M (list node)).
Variable shift : text -> text -> text -> Prop.
Hypothesis Hshift : forall i u w, shift i u w -> w = trim (e_trim ec) i u.
Hypothesis Hbr : e_browse ec = false.
Variable free : text -> Prop.
Variable bs : list (text * node).
Hypothesis Hbs : Forall (fun b => data (snd b)) bs.
Hypothesis Hfree : forall n v, free n -> ~ gives bs n v.
Variables (s : yst) (F : env).
Hypothesis Hf1 : forall k v, gives bs k v -> lookup F k = Some NBound \/ lookup F k = Some v.
Hypothesis Hf2 : forall n, free n -> lookup F n = None.
Lemma all_steps E : steps ec parse shift free bs s F E.
Proof.
  apply (all_steps_late ec parse shift Hshift Hbr free bs Hbs Hfree [] s F (fun _ => False)); [|exact Hf2|].
  - intros k v H. destruct (Hf1 k v H); auto.
  - apply all_fits. intros k [].
Qed.
Variable p : text.
Hypothesis Hp : lookup F p = Some NBound.
Lemma all_stuck E : stuck ec parse shift free bs s F p E.
Proof.
  apply (all_stuck_late ec parse shift Hshift Hbr free bs Hbs Hfree [] s F (fun _ => False)); [|exact Hf2|intros k []|exact Hp].
  intros k v H. destruct (Hf1 k v H); auto.
Qed.
End Plain.
