(** Expressions with calls of functions: the environments in which they have their meaning (proofs only). *)
From Coq Require Import List NArith ZArith Bool String Lia ZifyBool ZifyNat ZifyN.
From Verif Require Import PyStr Ast Lex Parse Final Eval PyStrFacts EnvSpec EnvFacts TrimSpec EvalSpec EvalMono EvalKeep EvalPure EvalFacts EvalFacts2 EvalFacts3 EvalFacts4 ApplyFacts ApplyFacts2 ApplyFacts3 ApplyFacts4 CoreSpec CoreFacts CoreFacts2 UseSpec UseFacts.
Import ListNotations.
Open Scope list_scope.

(** ** What a name stands for *)
Inductive leaf := LVal (v : node) | LSub (A : iexp).
Definition mk (r : region) (a : source) (lf : leaf) : iexp := match lf with LVal v => IParam r a v | LSub A => ISub r a A end.
Definition is_name_b (p : text) (A : uexp) : bool := match A with UName _ a => teqb (s_txt a) p | _ => false end.
Lemma is_name_spec p A : is_name_b p A = true <-> is_name p A.
Proof. destruct A; cbn [is_name_b is_name]; try (split; [discriminate|contradiction]). destruct (teqb_spec (s_txt a) p); split; auto; discriminate. Qed.
Definition own (ps : list text) (args : list uexp) : list text :=
  map fst (filter (fun x => negb (is_name_b (fst x) (snd x))) (combine ps args)).
Definition pass (sg : list (text * leaf)) (x : text * (uexp * iexp)) : text * leaf :=
  match x with (p, (A, J)) => (p, if is_name_b p A then match dict_get p sg with Some lf => lf | None => LSub J end else LSub J) end.
Definition scope (sg : list (text * leaf)) (ps : list text) (args : list uexp) (l : list iexp) : list (text * leaf) :=
  map (pass sg) (combine ps (combine args l)).
Definition name_inst (gs : list (text * node)) (sg : list (text * leaf)) (r : region) (a : source) : iexp :=
  match dict_get (s_txt a) sg with
  | Some lf => mk r a lf
  | None => match dict_get (s_txt a) gs with Some v => IGlobal r a v | None => IGlobal r a NNone end
  end.
Definition calls := text -> option (list text * (list (text * leaf) -> iexp)).
Definition infix_names ec t := match e_names ec (lstrip t) with Ok ns => ns | _ => [] end.
Definition infix_known (gs : list (text * node)) (sg : list (text * leaf)) ns := filter (fun n => dict_mem n sg || dict_mem n gs) ns.
Fixpoint inst_go (ec : ectx) (call : calls) (gs : list (text * node)) (sg : list (text * leaf)) (E : uexp) {struct E} : iexp :=
  match E with
  | UValue v => IValue v
  | UName r a => name_inst gs sg r a
  | UList l => IList (map (inst_go ec call gs sg) l)
  | UCond c a b => ICond (inst_go ec call gs sg c) (inst_go ec call gs sg a) (inst_go ec call gs sg b)
  | UCall f l file pos => ICall f (map (inst_go ec call gs sg) l) file pos
  | UPick z l file pos => IPick z (map (inst_go ec call gs sg) l) file pos
  | UShow E file pos => IShow (inst_go ec call gs sg E) file pos
  | UInfix ast t file pos => let ns := infix_names ec t in let ks := infix_known gs sg ns in
      IInfix ast t ns ks (map (fun k => name_inst gs sg (RList []) (raw k)) ks) file pos
  | ULit s i => ILit s i
  | UText l sq q => IText (map (inst_go ec call gs sg) l) sq q
  | UUse f args file pos => let l := map (inst_go ec call gs sg) args in
      match call (s_txt f) with
      | Some (ps, body) => IUse f ps (own ps args) l (body (scope sg ps args l)) file pos
      | None => ICall f l file pos
      end
  end.
Fixpoint callee (ec : ectx) (fs : list (text * ufun)) : calls :=
  match fs with
  | [] => fun _ => None
  | (f, F) :: before => fun g => if teqb f g then Some (f_params F, fun sg => inst_go ec (callee ec before) (f_known F) sg (f_body F)) else callee ec before g
  end.
Definition inst ec fs := inst_go ec (callee ec fs).
Lemma callee_at ec later f F before : ~ In f (names later) ->
  callee ec (later ++ (f, F) :: before) f = Some (f_params F, fun sg => inst ec before (f_known F) sg (f_body F)).
Proof.
  induction later as [|[g G] later IH]; cbn [app callee]; intros H.
  - destruct (teqb_spec f f); [reflexivity|congruence].
  - destruct (teqb_spec g f) as [->|Hn]; [exfalso; apply H; left; reflexivity|]. apply IH. intros K. apply H. right. exact K.
Qed.
(** induction on expressions *)
Section UNest.
Variable P : uexp -> Prop.
Hypotheses (Pval : forall v, P (UValue v)) (Pname : forall r a, P (UName r a)) (Plist : forall l, Forall P l -> P (UList l))
  (Pcond : forall c a b, P c -> P a -> P b -> P (UCond c a b)) (Pcall : forall f l file pos, Forall P l -> P (UCall f l file pos))
  (Ppick : forall z l file pos, Forall P l -> P (UPick z l file pos)) (Pshow : forall E file pos, P E -> P (UShow E file pos))
  (Pinfix : forall a t file pos, P (UInfix a t file pos)) (Plit : forall s i, P (ULit s i)) (Ptext : forall l sq q, Forall P l -> P (UText l sq q))
  (Puse : forall f l file pos, Forall P l -> P (UUse f l file pos)).
Fixpoint uexp_nest (E : uexp) : P E :=
  let all := fix all l : Forall P l := match l with [] => Forall_nil _ | E :: r => Forall_cons E (uexp_nest E) (all r) end in
  match E with
  | UValue v => Pval v
  | UName r a => Pname r a
  | UList l => Plist l (all l)
  | UCond c a b => Pcond c a b (uexp_nest c) (uexp_nest a) (uexp_nest b)
  | UCall f l file pos => Pcall f l file pos (all l)
  | UPick z l file pos => Ppick z l file pos (all l)
  | UShow E file pos => Pshow E file pos (uexp_nest E)
  | UInfix a t file pos => Pinfix a t file pos
  | ULit s i => Plit s i
  | UText l sq q => Ptext l sq q (all l)
  | UUse f l file pos => Puse f l file pos (all l)
  end.
End UNest.
Lemma name_tree gs sg r a : itree (name_inst gs sg r a) = NVar r a.
Proof. unfold name_inst. destruct (dict_get _ sg) as [[]|]; [reflexivity|reflexivity|]. destruct (dict_get _ gs); reflexivity. Qed.
Lemma map_same {A B} (f g : A -> B) l : Forall (fun x => f x = g x) l -> map f l = map g l.
Proof. induction 1; cbn [map]; f_equal; assumption. Qed.
Lemma inst_tree ec call gs sg E : itree (inst_go ec call gs sg E) = utree E.
Proof.
  induction E using uexp_nest; cbn [inst_go itree utree]; try reflexivity; try (f_equal; rewrite map_map; apply map_same; assumption).
  - apply name_tree.
  - f_equal; assumption.
  - f_equal; assumption.
  - destruct (call (s_txt f)) as [[ps body]|]; cbn [itree]; f_equal; rewrite map_map; apply map_same; assumption.
Qed.
Lemma inst_trees ec call gs sg l : map itree (map (inst_go ec call gs sg) l) = map utree l.
Proof. rewrite map_map. apply map_same, Forall_forall. intros E _. apply inst_tree. Qed.
Lemma name_nocond gs sg r a : nocond (name_inst gs sg r a) /\ flat (name_inst gs sg r a).
Proof. unfold name_inst. destruct (dict_get _ sg) as [[]|]; [split; exact Logic.I|split; exact Logic.I|]. destruct (dict_get _ gs); split; exact Logic.I. Qed.
Definition no_choices := fix all l := match l with [] => True | E :: l => no_choice E /\ all l end.
Definition simple_all := fix all l := match l with [] => True | E :: l => simple_choices E /\ all l end.
Lemma simple_all_spec l : simple_all l <-> Forall simple_choices l.
Proof. induction l as [|E l IH]; cbn [simple_all]; split; intros K; try constructor; try apply K; try apply IH; try apply K; inversion K; subst; tauto. Qed.
Lemma nocondl_map {A} (f : A -> iexp) (P : A -> Prop) l : Forall (fun E => P E -> nocond (f E)) l -> Forall P l -> nocondl (map f l).
Proof. intros H K. apply nocondl_spec, Forall_map. eapply Forall_impl2; eassumption. Qed.
Lemma no_choices_spec l : no_choices l <-> Forall no_choice l.
Proof. induction l as [|E l IH]; cbn [no_choices]; split; intros K; try constructor; try apply K; try apply IH; try apply K; inversion K; subst; tauto. Qed.
Lemma inst_nocond ec call gs sg E : no_choice E -> nocond (inst_go ec call gs sg E).
Proof.
  induction E using uexp_nest; cbn [inst_go nocond no_choice]; intros K; try exact Logic.I; try contradiction; auto;
    try (apply (nocondl_map _ no_choice); [assumption|apply no_choices_spec, K]).
  - apply name_nocond.
  - destruct (call (s_txt f)) as [[ps body]|]; cbn [nocond]; (apply (nocondl_map _ no_choice); [assumption|apply no_choices_spec, K]).
Qed.
Lemma inst_flat ec call gs sg E : simple_choices E -> flat (inst_go ec call gs sg E).
Proof.
  assert (L : forall l, Forall (fun E => simple_choices E -> flat (inst_go ec call gs sg E)) l -> simple_all l -> flatl (map (inst_go ec call gs sg) l)).
  { intros l H K. apply flatl_spec, Forall_map. eapply Forall_impl2; [exact H|]. apply simple_all_spec, K. }
  induction E using uexp_nest; cbn [inst_go flat simple_choices]; intros K; try exact Logic.I; auto; try (apply L; [assumption|exact K]).
  - apply name_nocond.
  - destruct K as (K1 & K2 & K3). split; [auto|]. split; apply inst_nocond; assumption.
  - destruct (call (s_txt f)) as [[ps body]|]; cbn [flat]; (apply L; [assumption|exact K]).
Qed.

(** ** Two instances of the same expression *)
Section Sim.
Variables (ec : ectx) (parse : text -> M (list node)).
Variable shift : text -> text -> text -> Prop.
Hypothesis Hshift : forall i u w, shift i u w -> w = trim (e_trim ec) i u.
Notation imean := (imean ec parse shift).
Notation ires := (ires ec parse shift).
Inductive sim : iexp -> iexp -> Prop :=
| SM_value v : sim (IValue v) (IValue v)
| SM_global r a v : sim (IGlobal r a v) (IGlobal r a v)
| SM_param r a v : sim (IParam r a v) (IParam r a v)
| SM_given r a v A : flat A -> imean A v -> sim (IParam r a v) (ISub r a A)
| SM_sub r a A A' : sim A A' -> sim (ISub r a A) (ISub r a A')
| SM_list l l' : Forall2 sim l l' -> sim (IList l) (IList l')
| SM_cond c a b c' a' b' : sim c c' -> sim a a' -> sim b b' -> sim (ICond c a b) (ICond c' a' b')
| SM_call f l l' file pos : Forall2 sim l l' -> sim (ICall f l file pos) (ICall f l' file pos)
| SM_pick z l l' file pos : Forall2 sim l l' -> sim (IPick z l file pos) (IPick z l' file pos)
| SM_show E E' file pos : sim E E' -> sim (IShow E file pos) (IShow E' file pos)
| SM_infix ast t ns ks l l' file pos : Forall2 sim l l' -> sim (IInfix ast t ns ks l file pos) (IInfix ast t ns ks l' file pos)
| SM_lit s i : sim (ILit s i) (ILit s i)
| SM_text l l' sq q : Forall2 sim l l' -> sim (IText l sq q) (IText l' sq q)
| SM_use f ps own l l' B B' file pos : Forall2 sim l l' -> sim B B' -> sim (IUse f ps own l B file pos) (IUse f ps own l' B' file pos).
Lemma sim_tree E : forall E', sim E E' -> itree E = itree E'.
Proof.
  assert (L : forall l, Forall (fun E => forall E', sim E E' -> itree E = itree E') l -> forall l', Forall2 sim l l' -> map itree l = map itree l').
  { induction 1 as [|E0 l HE _ IH]; intros l' K; inversion K; subst; cbn [map]; [reflexivity|f_equal; auto]. }
  induction E using iexp_nest; intros E' K; inversion K; subst; cbn [itree]; try reflexivity; try (f_equal; eauto; fail).
Qed.
Lemma sim_trees l l' : Forall2 sim l l' -> map itree l = map itree l'.
Proof. induction 1; cbn [map]; [reflexivity|f_equal; auto using sim_tree]. Qed.
Lemma sim_clean H E : forall E', sim E E' -> clean H E -> clean H E'.
Proof.
  assert (L : forall l, Forall (fun E => forall E', sim E E' -> clean H E -> clean H E') l -> forall l', Forall2 sim l l' -> cleanl H l -> cleanl H l').
  { induction 1 as [|E0 l HE _ IH]; intros l' K; inversion K; subst; cbn [cleanl]; [auto|]. intros [K1 K2]. split; eauto. }
  induction E using iexp_nest; intros E' K; inversion K; subst; cbn [clean]; try tauto; try (eapply L; eassumption); eauto.
  intros (K1 & K2 & K3). split; [eauto|split; eauto].
Qed.
Lemma sim_nocond E : forall E', sim E E' -> nocond E -> nocond E'.
Proof.
  assert (L : forall l, Forall (fun E => forall E', sim E E' -> nocond E -> nocond E') l -> forall l', Forall2 sim l l' -> nocondl l -> nocondl l').
  { induction 1 as [|E0 l HE _ IH]; intros l' K; inversion K; subst; cbn [nocondl]; [auto|]. intros [K1 K2]. split; eauto. }
  induction E using iexp_nest; intros E' K; inversion K; subst; cbn [nocond]; try tauto; try (eapply L; eassumption); eauto.
Qed.
Variable s : yst.
Lemma sim_same E : forall E' v v', sim E E' -> imean E v -> imean E' v' -> v = v'.
Proof.
  assert (L : forall l, Forall (fun E => forall E' v v', sim E E' -> imean E v -> imean E' v' -> v = v') l -> forall l' vs vs', Forall2 sim l l' -> Forall2 imean l vs -> Forall2 imean l' vs' -> vs = vs').
  { induction 1 as [|E0 l HE _ IH]; intros l' vs vs' K1 K2 K3; inversion K1; subst; inversion K2; inversion K3; subst; [reflexivity|]. f_equal; eauto. }
  induction E using iexp_nest; intros E' x y K Hx Hy; inversion K; subst; inversion Hx; inversion Hy; subst; try reflexivity; eauto.
  - eapply (imean_det ec parse shift Hshift s); eassumption.
  - f_equal. eauto.
  - repeat match goal with H : selects _ _ _ _ |- _ => apply (selects_if parse) in H end; subst.
    assert (vc0 = vc) by (symmetry; eauto). subst. destruct (truthy vc); eauto.
  - assert (vs0 = vs) by (symmetry; eauto). subst. eapply function_det; [exact s|eassumption|eassumption].
  - assert (vs0 = vs) by (symmetry; eauto). subst. match goal with A : indexed vs ?a, B : indexed vs ?b |- _ => assert (a = b) by (eapply indexed_det; eassumption) end. subst.
    eapply element_det; eassumption.
  - assert (ws0 = ws) by (symmetry; eauto). subst. congruence.
  - assert (vs0 = vs) by (symmetry; eauto). subst. f_equal.
    repeat match goal with H : written _ _ _ _ _ |- _ => apply (written_plain ec _ Hshift) in H end.
    match goal with H : Forall2 sim _ _ |- _ => apply sim_trees in H end. congruence.
Qed.
Lemma sim_res E : forall E' N o v x, sim E E' -> imean E v -> imean E' v -> ires N o E x -> ires N o E' x.
Proof.
  assert (L : forall l, Forall (fun E => forall E' N o v x, sim E E' -> imean E v -> imean E' v -> ires N o E x -> ires N o E' x) l ->
    forall l' N o vs vs' xs, Forall2 sim l l' -> Forall2 imean l vs -> Forall2 imean l' vs' -> ires2 ec parse shift N o l xs -> ires2 ec parse shift N o l' xs).
  { induction 1 as [|E0 l HE _ IH]; intros l' N o vs vs' [|x xs] K1 K2 K3 K4; inversion K1; subst; inversion K2; inversion K3; subst; try exact K4.
    destruct K4 as [K4 K5]. split; [|eapply IH; eassumption].
    match goal with M1 : imean E0 ?v, M2 : imean _ ?w |- _ => assert (v = w) by (eapply sim_same; eassumption); subst; eapply HE; eassumption end. }
  induction E using iexp_nest; intros E' N o v0 x K Hv Hv'; (intros [(-> & Hc & Hn)|[Hx|Hx]];
    [rewrite (sim_tree _ _ K); apply ires_tree; [eapply sim_clean; eassumption|intros Ho; eapply sim_nocond; [exact K|auto]]
    |assert (x = v0) by (eapply (imean_det ec parse shift Hshift s); eassumption); subst x; apply ires_mean; exact Hv'|]); inversion K; subst; right; right; try contradiction; try exact Hx.
  - left. exact Hx.
  - inversion Hv; inversion Hv'; subst. destruct Hx as [Hx|Hx]; [left; exact Hx|right; eapply IHE; eassumption].
  - inversion Hv; inversion Hv'; subst. destruct Hx as (xs & -> & Hx). exists xs. split; [reflexivity|]. eapply L; eassumption.
  - inversion Hv as [| | | | |? ? ? vc va vb vv Mc Ma Mb Ms| | | | | | |]; inversion Hv' as [| | | | |? ? ? vc1 va1 vb1 vv1 Mc1 Ma1 Mb1 Ms1| | | | | | |]; subst.
    assert (vc1 = vc) by (symmetry; eapply sim_same; [|exact Mc|exact Mc1]; assumption). assert (va1 = va) by (symmetry; eapply sim_same; [|exact Ma|exact Ma1]; assumption). assert (vb1 = vb) by (symmetry; eapply sim_same; [|exact Mb|exact Mb1]; assumption). subst.
    destruct Hx as [(xc & xa & xb & -> & Hc & Ha & Hb)|(vc' & Hc & Hx)].
    + left. exists xc, xa, xb. split; [reflexivity|]. split; [eauto|split; eauto].
    + right. assert (vc' = vc) by (eapply (imean_det ec parse shift Hshift s); eassumption). subst. exists vc. split; [exact Mc1|]. destruct (truthy vc); eauto.
  - inversion Hv; inversion Hv'; subst. destruct Hx as (xs & -> & Hx). exists xs. split; [reflexivity|]. eapply L; eassumption.
  - inversion Hv; inversion Hv'; subst. destruct Hx as (xs & -> & Hx). exists xs. split; [reflexivity|]. eapply L; eassumption.
  - inversion Hv; inversion Hv'; subst. destruct Hx as [(y & -> & Hx)|Hx]; [left; exists y; split; [reflexivity|eauto]|right; eauto].
  - inversion Hv; inversion Hv'; subst. destruct Hx as (xs & -> & Hx). exists xs. split; [reflexivity|]. eapply L; eassumption.
  - inversion Hv; inversion Hv'; subst. destruct Hx as (xs & -> & Hi & Hx). exists xs. rewrite <- (sim_trees l l') by assumption. split; [reflexivity|]. split; [exact Hi|]. eapply L; eassumption.
  - inversion Hv; inversion Hv'; subst. eapply IHE; eassumption.
Qed.
Definition lsim (a b : leaf) : Prop :=
  match a, b with
  | LVal v, LVal w => v = w
  | LVal v, LSub A => flat A /\ imean A v
  | LSub A, LSub A' => sim A A'
  | LSub _, LVal _ => False
  end.
Definition ssim (sg sg' : list (text * leaf)) : Prop := Forall2 (fun x y => fst x = fst y /\ lsim (snd x) (snd y)) sg sg'.
Lemma ssim_get sg sg' k : ssim sg sg' -> match dict_get k sg, dict_get k sg' with Some a, Some b => lsim a b | None, None => True | _, _ => False end.
Proof.
  induction 1 as [|[a x] [b y] sg sg' [H1 H2] _ IH]; cbn [dict_get]; [exact Logic.I|]. cbn [fst snd] in *. subst b.
  destruct (teqb k a); [exact H2|exact IH].
Qed.
Lemma ssim_mem sg sg' k : ssim sg sg' -> dict_mem k sg = dict_mem k sg'.
Proof. intros H. pose proof (ssim_get sg sg' k H) as K. unfold dict_mem. destruct (dict_get k sg), (dict_get k sg'); tauto || reflexivity. Qed.
Lemma name_sim gs sg sg' r a : ssim sg sg' -> sim (name_inst gs sg r a) (name_inst gs sg' r a).
Proof.
  intros H. pose proof (ssim_get sg sg' (s_txt a) H) as K. unfold name_inst. destruct (dict_get (s_txt a) sg) as [x|], (dict_get (s_txt a) sg') as [y|]; try contradiction.
  - destruct x, y; cbn [lsim mk] in *; try contradiction; [subst; constructor|apply SM_given; apply K|apply SM_sub, K].
  - destruct (dict_get _ gs); constructor.
Qed.
Definition call_sim (call : calls) : Prop := forall f ps body, call f = Some (ps, body) -> forall sg sg', ssim sg sg' -> sim (body sg) (body sg').
Lemma pass_sim sg sg' : ssim sg sg' -> forall ps args l l', Forall2 sim l l' -> ssim (scope sg ps args l) (scope sg' ps args l').
Proof.
  intros Hs. unfold scope. induction ps as [|p ps IH]; intros args l l' K; [constructor|]. destruct args as [|A args]; [constructor|].
  inversion K as [|J J2 l0 l0' K1 K2]; subst; cbn [combine map]; constructor; [|apply IH; exact K2].
  cbn [pass fst snd]. split; [reflexivity|]. pose proof (ssim_get sg sg' p Hs) as Kp. destruct (is_name_b p A); [|exact K1].
  destruct (dict_get p sg), (dict_get p sg'); try contradiction; [exact Kp|exact K1].
Qed.
Lemma go_sim call gs : call_sim call -> forall E sg sg', ssim sg sg' -> sim (inst_go ec call gs sg E) (inst_go ec call gs sg' E).
Proof.
  intros Hc E. induction E using uexp_nest; intros sg sg' Hs; cbn [inst_go];
    try (assert (L : Forall2 sim (map (inst_go ec call gs sg) l) (map (inst_go ec call gs sg') l)) by (clear - H Hs; induction H; cbn [map]; constructor; auto));
    try (constructor; auto; fail).
  - apply name_sim, Hs.
  - replace (infix_known gs sg (infix_names ec t)) with (infix_known gs sg' (infix_names ec t)).
    + apply SM_infix. induction (infix_known gs sg' (infix_names ec t)); cbn [map]; constructor; auto using name_sim.
    + unfold infix_known. apply filter_ext. intros n. rewrite (ssim_mem _ _ n Hs). reflexivity.
  - destruct (call (s_txt f)) as [[ps body]|] eqn:Ef; [|constructor; exact L]. apply SM_use; [exact L|]. eapply Hc; [exact Ef|]. apply pass_sim; assumption.
Qed.
Lemma callee_sim fs : call_sim (callee ec fs).
Proof.
  induction fs as [|[f F] fs IH]; intros g ps body; cbn [callee]; [discriminate|]. destruct (teqb f g); [|apply IH].
  intros K. injection K as <- <-. intros sg sg' Hs. apply go_sim; assumption.
Qed.
End Sim.
