(** Expressions with calls of functions: the environments in which they have their meaning, continued (proofs only). *)
From Coq Require Import List NArith ZArith Bool String Lia ZifyBool ZifyNat ZifyN.
From Verif Require Import PyStr Ast Lex Parse Final Eval PyStrFacts EnvSpec EnvFacts TrimSpec EvalSpec EvalMono EvalKeep EvalPure EvalFacts EvalFacts2 EvalFacts3 EvalFacts4 ApplyFacts ApplyFacts2 ApplyFacts3 ApplyFacts4 CoreSpec CoreFacts CoreFacts2 UseSpec UseFacts UseFacts2.
Import ListNotations.
Open Scope list_scope.

Section UMNest.
Variables (ec : ectx) (parse : text -> M (list node)) (shift : text -> text -> text -> Prop) (free parameter : text -> Prop).
Notation um := (umeans ec parse shift free parameter).
Variable P : list (text * ufun) -> list text -> list (text * node) -> list (text * node) -> uexp -> node -> Prop.
Hypotheses (Pvalue : forall fs used gs bs v, data v -> P fs used gs bs (UValue v) v)
  (Pparameter : forall fs used gs bs r a v, gives bs (s_txt a) v -> P fs used gs bs (UName r a) v)
  (Pknown : forall fs used gs bs r a v, ~ parameter (s_txt a) -> gives gs (s_txt a) v -> P fs used gs bs (UName r a) v)
  (Plist : forall fs used gs bs l vs, Forall2 (um fs used gs bs) l vs -> Forall2 (P fs used gs bs) l vs -> P fs used gs bs (UList l) (NList vs))
  (Pcond : forall fs used gs bs c a b vc va vb w, P fs used gs bs c vc -> P fs used gs bs a va -> P fs used gs bs b vb ->
    selects vc va vb w -> P fs used gs bs (UCond c a b) w)
  (Pcall : forall fs used gs bs f args file pos vs w, Forall2 (um fs used gs bs) args vs -> Forall2 (P fs used gs bs) args vs -> free (s_txt f) ->
    function_gives ec (s_txt f) vs w -> data w -> P fs used gs bs (UCall f args file pos) w)
  (Ppick : forall fs used gs bs z args file pos vs l w, Forall2 (um fs used gs bs) args vs -> Forall2 (P fs used gs bs) args vs -> indexed vs l -> element l z w -> data w ->
    P fs used gs bs (UPick z args file pos) w)
  (Pshow : forall fs used gs bs E file pos v u, P fs used gs bs E v -> value_text v u -> P fs used gs bs (UShow E file pos) v)
  (Pinfix : forall fs used gs bs ast t file pos ns vals v, constant_text ec parse ast t -> e_names ec (lstrip t) = Ok ns ->
    upicks free parameter gs bs ns vals -> e_infix ec (lstrip t) vals = Ok v -> data (const_result v) ->
    P fs used gs bs (UInfix ast t file pos) (const_result v))
  (Plit : forall fs used gs bs s i, P fs used gs bs (ULit s i) (NPlain s i false))
  (Ptext : forall fs used gs bs l sq q vs t, Forall2 (um fs used gs bs) l vs -> Forall2 (P fs used gs bs) l vs -> Forall (fun E => ~ unplaced E) l ->
    written shift (IndStr []) (map utree l) vs t -> P fs used gs bs (UText l sq q) (NRaw t))
  (Puse : forall fs used gs bs f args file pos vs w later F before, fs = later ++ (s_txt f, F) :: before ->
    Forall2 (um fs used gs bs) args vs -> Forall2 (P fs used gs bs) args vs -> List.length (f_params F) = List.length args ->
    Forall2 (fun p A => In p used -> is_name p A) (f_params F) args ->
    Forall simple_choices args -> simple_choices (f_body F) ->
    um before (f_params F ++ used) (f_known F) (combine (f_params F) vs) (f_body F) w ->
    P before (f_params F ++ used) (f_known F) (combine (f_params F) vs) (f_body F) w ->
    P fs used gs bs (UUse f args file pos) w).
Fixpoint umeans_nest fs used gs bs E v (D : um fs used gs bs E v) {struct D} : P fs used gs bs E v :=
  let all := fun fs used gs bs => fix all l vs (D : Forall2 (um fs used gs bs) l vs) : Forall2 (P fs used gs bs) l vs :=
    match D with Forall2_nil _ => Forall2_nil _ | @Forall2_cons _ _ _ E v l vs D1 D2 => Forall2_cons E v (umeans_nest _ _ _ _ E v D1) (all l vs D2) end in
  match D with
  | UM_value _ _ _ _ _ fs used gs bs v H => Pvalue fs used gs bs v H
  | UM_parameter _ _ _ _ _ fs used gs bs r a v H => Pparameter fs used gs bs r a v H
  | UM_known _ _ _ _ _ fs used gs bs r a v H1 H2 => Pknown fs used gs bs r a v H1 H2
  | UM_list _ _ _ _ _ fs used gs bs l vs H => Plist fs used gs bs l vs H (all fs used gs bs l vs H)
  | UM_cond _ _ _ _ _ fs used gs bs c a b vc va vb w H1 H2 H3 H4 => Pcond fs used gs bs c a b vc va vb w (umeans_nest _ _ _ _ _ _ H1) (umeans_nest _ _ _ _ _ _ H2) (umeans_nest _ _ _ _ _ _ H3) H4
  | UM_call _ _ _ _ _ fs used gs bs f args file pos vs w H1 H2 H3 H4 => Pcall fs used gs bs f args file pos vs w H1 (all fs used gs bs args vs H1) H2 H3 H4
  | UM_pick _ _ _ _ _ fs used gs bs z args file pos vs l w H1 H2 H3 H4 => Ppick fs used gs bs z args file pos vs l w H1 (all fs used gs bs args vs H1) H2 H3 H4
  | UM_show _ _ _ _ _ fs used gs bs E file pos v u H1 H2 => Pshow fs used gs bs E file pos v u (umeans_nest _ _ _ _ _ _ H1) H2
  | UM_infix _ _ _ _ _ fs used gs bs ast t file pos ns vals v H1 H2 H3 H4 H5 => Pinfix fs used gs bs ast t file pos ns vals v H1 H2 H3 H4 H5
  | UM_lit _ _ _ _ _ fs used gs bs s i => Plit fs used gs bs s i
  | UM_text _ _ _ _ _ fs used gs bs l sq q vs t H1 H2 H3 => Ptext fs used gs bs l sq q vs t H1 (all fs used gs bs l vs H1) H2 H3
  | UM_use _ _ _ _ _ fs used gs bs f args file pos vs w later F before H1 H2 H3 H4 H5 H6 H7 =>
      Puse fs used gs bs f args file pos vs w later F before H1 H2 (all fs used gs bs args vs H2) H3 H4 H5 H6 H7 (umeans_nest _ _ _ _ _ _ H7)
  end.
End UMNest.

(** ** The names an expression depends on, at any depth *)
Fixpoint deep (E : iexp) (a : text) (lf : leaf) {struct E} : Prop :=
  let any := fix any l := match l with [] => False | E :: l => deep E a lf \/ any l end in
  match E with
  | IValue _ | IGlobal _ _ _ | ILit _ _ => False
  | IParam r b v => a = s_txt b /\ lf = LVal v
  | ISub r b A => (a = s_txt b /\ lf = LSub A) \/ deep A a lf
  | IList l | IPick _ l _ _ | IText l _ _ | ICall _ l _ _ | IInfix _ _ _ _ l _ _ => any l
  | ICond c x y => deep c a lf \/ deep x a lf \/ deep y a lf
  | IShow E _ _ => deep E a lf
  | IUse f ps own l B _ _ => any l \/ (deep B a lf /\ ~ In a own)
  end.
Definition deeps a lf := fix any l := match l with [] => False | E :: l => deep E a lf \/ any l end.
Lemma deeps_spec a lf l : deeps a lf l <-> Exists (fun E => deep E a lf) l.
Proof.
  induction l as [|E l IH]; cbn [deeps]; split; intros K; [contradiction|inversion K| |].
  - destruct K as [K|K]; [left; exact K|right; apply IH, K].
  - inversion K; subst; [left; assumption|right; apply IH; assumption].
Qed.
Lemma deeps_in a lf E l : In E l -> deep E a lf -> deeps a lf l.
Proof. intros H K. apply deeps_spec, Exists_exists. eauto. Qed.
Lemma text_dec (a : text) l : {In a l} + {~ In a l}.
Proof. apply In_dec, list_eq_dec, N.eq_dec. Qed.
Section Inst.
Variables (ec : ectx) (parse : text -> M (list node)).
Notation evs := (evals ec parse).
Variable shift : text -> text -> text -> Prop.
Hypothesis Hshift : forall i u w, shift i u w -> w = trim (e_trim ec) i u.
Hypothesis Hbr : e_browse ec = false.
Variable s : yst.
Notation imean := (imean ec parse shift).
Notation ires := (ires ec parse shift).
Notation fit := (fit ec parse shift).
Notation full := (full ec parse shift).
Notation partly := (partly ec parse shift).
Notation filled := (filled ec parse shift).
Notation leaf_fit := (leaf_fit ec parse shift).
(** the names of the result are among the names of the expression *)
Lemma ires_avoid E : forall (N N' : text -> Prop) o x, (forall a lf, deep E a lf -> N' a -> N a) -> ires N o E x -> ires N' o E x.
Proof.
  assert (Lc : forall E (N N' : text -> Prop), (forall a lf, deep E a lf -> N' a -> N a) -> clean N E -> clean N' E).
  { clear. intros E. induction E using iexp_nest; intros N N' Hd; cbn [clean]; try tauto.
    - intros K Ha. apply K, (Hd _ (LVal v)); [split; reflexivity|exact Ha].
    - intros K Ha. apply K, (Hd _ (LSub E)); [left; split; reflexivity|exact Ha].
    - intros K. apply cleanl_spec. apply cleanl_spec in K. rewrite Forall_forall in *. intros E HE. eapply (H E HE); [|apply K, HE]. intros a lf Hl. apply (Hd a lf). eapply deeps_in; eassumption.
    - intros (K1 & K2 & K3). split; [|split]; [eapply IHE1|eapply IHE2|eapply IHE3]; try eassumption; intros a lf Hl; apply (Hd a lf); cbn [deep]; auto.
    - intros K. apply cleanl_spec. apply cleanl_spec in K. rewrite Forall_forall in *. intros E HE. eapply (H E HE); [|apply K, HE]. intros a lf Hl. apply (Hd a lf). eapply deeps_in; eassumption.
    - intros K. apply cleanl_spec. apply cleanl_spec in K. rewrite Forall_forall in *. intros E HE. eapply (H E HE); [|apply K, HE]. intros a lf Hl. apply (Hd a lf). eapply deeps_in; eassumption.
    - apply IHE. intros a lf Hl. apply (Hd a lf). exact Hl.
    - intros K. apply cleanl_spec. apply cleanl_spec in K. rewrite Forall_forall in *. intros E HE. eapply (H E HE); [|apply K, HE]. intros b lf Hl. apply (Hd b lf). eapply deeps_in; eassumption.
    - intros K. apply cleanl_spec. apply cleanl_spec in K. rewrite Forall_forall in *. intros E HE. eapply (H E HE); [|apply K, HE]. intros a lf Hl. apply (Hd a lf). eapply deeps_in; eassumption.
    - intros K. apply cleanl_spec. apply cleanl_spec in K. rewrite Forall_forall in *. intros E1 HE. eapply (H E1 HE); [|apply K, HE]. intros a lf Hl. apply (Hd a lf). left. eapply deeps_in; eassumption. }
  assert (L : forall l, Forall (fun E => forall (N N' : text -> Prop) o x, (forall a lf, deep E a lf -> N' a -> N a) -> ires N o E x -> ires N' o E x) l ->
    forall (N N' : text -> Prop) o xs, (forall a lf, deeps a lf l -> N' a -> N a) -> ires2 ec parse shift N o l xs -> ires2 ec parse shift N' o l xs).
  { clear. induction 1 as [|E0 l HE _ IH]; intros N N' o [|x xs] Hd; cbn [ires2]; try tauto. intros [K1 K2]. split.
    - eapply HE; [|exact K1]. intros a lf Hl. apply (Hd a lf). left. exact Hl.
    - eapply IH; [|exact K2]. intros a lf Hl. apply (Hd a lf). right. exact Hl. }
  induction E using iexp_nest; intros N N' o x Hd [(-> & K1 & K2)|[Hx|Hx]]; try (apply ires_tree; [eapply Lc; eassumption|auto]; fail);
    try (apply ires_mean; exact Hx); right; right; try contradiction.
  - destruct Hx as (r' & a' & -> & E & Hn). exists r', a'. split; [reflexivity|]. split; [exact E|]. intros Ha. apply Hn, (Hd _ (LVal v)); [split; reflexivity|exact Ha].
  - destruct Hx as [(r' & a' & -> & E' & Hn)|Hx].
    + left; exists r', a'; split; [reflexivity|]; split; [exact E'|]. intros Ha. apply Hn, (Hd _ (LSub E)); [left; split; reflexivity|exact Ha].
    + right. eapply IHE; [|exact Hx]. intros b lf Hl. apply (Hd b lf). right. exact Hl.
  - destruct Hx as (xs & -> & Hx). exists xs. split; [reflexivity|]. eapply (L l H); eassumption.
  - destruct Hx as [(xc & xa & xb & -> & Hc & Ha & Hb)|(vc & Hc & Hx)].
    + left; exists xc, xa, xb. split; [reflexivity|]. split; [|split]; [eapply IHE1|eapply IHE2|eapply IHE3]; try eassumption; intros b lf Hl; apply (Hd b lf); cbn [deep]; auto.
    + right. exists vc. split; [exact Hc|]. destruct (truthy vc); [eapply IHE2|eapply IHE3]; try eassumption; intros b lf Hl; apply (Hd b lf); cbn [deep]; auto.
  - destruct Hx as (xs & -> & Hx). exists xs. split; [reflexivity|]. eapply (L l H); eassumption.
  - destruct Hx as (xs & -> & Hx). exists xs. split; [reflexivity|]. eapply (L l H); eassumption.
  - destruct Hx as [(y & -> & Hy)|Hx]; [left; exists y; split; [reflexivity|eauto]|right; eauto].
  - destruct Hx as (xs & -> & Hx). exists xs. split; [reflexivity|]. eapply (L l H); eassumption.
  - destruct Hx as (xs & -> & Hi & Hx). exists xs. split; [reflexivity|]. split; [exact Hi|]. eapply (L l H); eassumption.
  - cbn beta iota in *. eapply IHE; [|exact Hx]. intros b lf Hl [Hb|Hb]; [|right; exact Hb].
    destruct (text_dec b own) as [Hi|Hi]; [right; exact Hi|]. left. apply (Hd b lf); [right; split; assumption|exact Hb].
Qed.
Lemma imean_leaf r a r' a' lf v : imean (mk r a lf) v -> imean (mk r' a' lf) v.
Proof. destruct lf; cbn [mk]; intros K; inversion K; subst; constructor; assumption. Qed.
Lemma ires_leaf r a r' a' lf N o x : s_txt a = s_txt a' -> ires N o (mk r a lf) x -> ires N o (mk r' a' lf) x.
Proof.
  intros E. destruct lf; cbn [mk]; intros [(-> & K & _)|[K|K]]; cbn [itree clean] in *.
  - right. right. exists r, a. rewrite <- E. auto.
  - apply ires_mean. inversion K; subst. constructor. assumption.
  - right. right. rewrite <- E. exact K.
  - right. right. left. exists r, a. rewrite <- E. auto.
  - apply ires_mean. inversion K; subst. constructor; assumption.
  - right. right. rewrite <- E. exact K.
Qed.
(** ** Scopes *)
Definition lmean (lf : leaf) (v : node) : Prop := match lf with LVal w => w = v /\ data v | LSub A => flat A /\ imean A v end.
Definition holds (sg : list (text * leaf)) (bs : list (text * node)) : Prop := Forall2 (fun x y => fst x = fst y /\ lmean (snd x) (snd y)) sg bs.
Lemma holds_data sg ps vs : List.length ps = List.length vs -> holds sg (combine ps vs) -> Forall data vs.
Proof.
  unfold holds. revert sg vs. induction ps as [|p ps IH]; intros sg [|v vs] Hl H; try discriminate Hl; [constructor|]. cbn [combine] in H. inversion H as [|? ? ? ? [_ Hv] Hr]; subst. constructor.
  - cbn [snd] in Hv. destruct (snd x); cbn [lmean] in Hv; [apply Hv|]. eapply (imean_data ec parse). apply Hv.
  - eapply IH; [injection Hl; auto|exact Hr].
Qed.
Lemma lmean_mk r a lf v : lmean lf v -> imean (mk r a lf) v.
Proof. destruct lf; cbn [lmean mk]; intros [H1 H2]; [subst|]; constructor; assumption. Qed.
Lemma holds_get sg bs k v : holds sg bs -> gives bs k v -> exists lf, dict_get k sg = Some lf /\ lmean lf v.
Proof.
  intros H K. apply dict_get_gives in K. revert K. induction H as [|[a x] [b y] sg bs [H1 H2] _ IH]; cbn [dict_get]; [discriminate|]. cbn [fst snd] in *. subst b.
  destruct (teqb k a); [intros E; injection E as <-; eauto|exact IH].
Qed.
Lemma holds_some sg bs k lf : holds sg bs -> dict_get k sg = Some lf -> exists v, gives bs k v /\ lmean lf v.
Proof.
  intros H. induction H as [|[a x] [b y] sg bs [H1 H2] _ IH]; cbn [dict_get]; [discriminate|]. cbn [fst snd] in *. subst b. intros K.
  destruct (teqb k a) eqn:E.
  - injection K as <-. exists y. split; [|exact H2]. apply dict_get_gives. cbn [dict_get]. rewrite E. reflexivity.
  - destruct (IH K) as (v & G & L). exists v. split; [|exact L]. apply dict_get_gives. cbn [dict_get]. rewrite E. apply dict_get_gives, G.
Qed.
Variables free parameter : text -> Prop.
Notation um := (umeans ec parse shift free parameter).
Hypothesis Hfp : forall n, free n -> ~ parameter n.
(** the environments of one place of the program: with more frames of parameters *)
Variable W : env -> Prop.
Hypothesis Wframe : forall F fr, W F -> (forall k, dict_mem k fr = true -> parameter k) -> W (fr :: F).
Hypothesis Wfree : forall F n, W F -> free n -> lookup F n = None.
Definition ok_known (gs : list (text * node)) : Prop :=
  forall n v, gives gs n v -> ~ parameter n -> data v /\ ~ free n /\ forall F, W F -> lookup F n = Some v.
Definition ok_closure (before : list (text * ufun)) (f : text) (F : ufun) : Prop :=
  forall used vs w, um before (f_params F ++ used) (f_known F) (combine (f_params F) vs) (f_body F) w ->
    List.length (f_params F) = List.length vs -> Forall data vs -> simple_choices (f_body F) ->
    exists b dflt, (forall E, W E -> lookup E f = Some (NLClosure b (fresh_frame (f_params F)) [] dflt)) /\
      forall sg, holds sg (combine (f_params F) vs) -> forall H0 : text -> Prop, (forall p, In p (f_params F) -> ~ H0 p) ->
        ires H0 true (inst ec before (f_known F) sg (f_body F)) b.
Fixpoint okfs (fs : list (text * ufun)) : Prop :=
  match fs with
  | [] => True
  | (f, F) :: before => okfs before /\ ~ In f (names before) /\ f_params F <> [] /\ NoDup (f_params F) /\ ~ In va_args (f_params F) /\ Forall parameter (f_params F) /\
      ok_known (f_known F) /\ ok_closure before f F
  end.
Lemma okfs_app later fs : okfs (later ++ fs) -> okfs fs.
Proof. induction later as [|[f F] later IH]; cbn [app okfs]; [auto|]. intros (K & _). auto. Qed.
Lemma okfs_first later f F before : okfs (later ++ (f, F) :: before) -> ~ In f (names later).
Proof.
  induction later as [|[g G] later IH]; cbn [app okfs]; [auto|]. intros (K & Hn & _) [E|E]; [|exact (IH K E)]. cbn [fst] in E. subst g.
  apply Hn. unfold names. rewrite map_app. apply in_or_app. right. left. reflexivity.
Qed.
(** the arguments of a call *)
Lemma scope_holds sg bs ps args l vs : holds sg bs -> Forall2 imean l vs -> Forall flat l -> List.length ps = List.length args -> List.length args = List.length l ->
  Forall2 (fun A J => forall p, is_name p A -> parameter p -> exists r a lf, s_txt a = p /\ dict_get p sg = Some lf /\ J = mk r a lf) args l -> Forall parameter ps ->
  holds (scope sg ps args l) (combine ps vs).
Proof.
  intros Hs Hm. revert ps args. unfold scope. induction Hm as [|J v l vs HJ _ IH]; intros ps args Hf H1 H2 Hn Hp; destruct args as [|A args]; try discriminate H2; destruct ps as [|p ps]; try discriminate H1; cbn [combine map]; [constructor|].
  inversion Hn as [|? ? ? ? N1 N2]; subst. inversion Hp; subst. inversion Hf; subst. constructor; [|apply IH; auto].
  cbn [pass fst snd]. split; [reflexivity|]. destruct (is_name_b p A) eqn:E; [|split; assumption]. apply is_name_spec in E.
  destruct (N1 p E) as (r & a & lf & Ea & Eg & EJ); [assumption|]. rewrite Eg.
  destruct (holds_some _ _ _ _ Hs Eg) as (v' & _ & Lv). assert (v = v'). { subst J. eapply (imean_det ec parse shift Hshift s); [exact HJ|apply lmean_mk, Lv]. } subst. exact Lv.
Qed.
Lemma name_given gs sg bs fs used r a v : holds sg bs -> um fs used gs bs (UName r a) v -> parameter (s_txt a) -> exists lf, dict_get (s_txt a) sg = Some lf /\ lmean lf v /\ name_inst gs sg r a = mk r a lf.
Proof.
  intros Hs K Hp. inversion K as [|? ? ? ? ? ? ? G| | | | | | | | | |]; subst; [|contradiction]. destruct (holds_get _ _ _ _ Hs G) as (lf & G1 & G2).
  exists lf. unfold name_inst. rewrite G1. auto.
Qed.
Lemma args_given fs used gs bs sg args vs : holds sg bs -> Forall2 (um fs used gs bs) args vs ->
  Forall2 (fun A J => forall p, is_name p A -> parameter p -> exists r a lf, s_txt a = p /\ dict_get p sg = Some lf /\ J = mk r a lf) args (map (inst ec fs gs sg) args).
Proof.
  intros Hs. induction 1 as [|A v args vs HA _ IH]; cbn [map]; constructor; [|exact IH]. intros p Hn Hp. destruct A; try contradiction Hn. cbn [is_name] in Hn. subst p.
  destruct (name_given _ _ _ _ _ _ _ _ Hs HA Hp) as (lf & G1 & _ & G2). exists r, a, lf. auto.
Qed.
Lemma inst_use fs f F before later gs sg args file pos : fs = later ++ (s_txt f, F) :: before -> okfs fs ->
  inst ec fs gs sg (UUse f args file pos) = let l := map (inst ec fs gs sg) args in
    IUse f (f_params F) (own (f_params F) args) l (inst ec before (f_known F) (scope sg (f_params F) args l) (f_body F)) file pos.
Proof.
  intros -> Hok. unfold inst at 1. cbn [inst_go]. rewrite callee_at by (eapply okfs_first; exact Hok). reflexivity.
Qed.
Lemma own_incl ps args : incl (own ps args) ps.
Proof. intros p Hp. unfold own in Hp. apply in_map_iff in Hp as ([q A] & <- & Hp). apply filter_In in Hp as [Hp _]. eapply in_combine_l. exact Hp. Qed.
Lemma known_inst fs used gs bs sg r a v : holds sg bs -> (forall k lf, dict_get k sg = Some lf -> parameter k) -> um fs used gs bs (UName r a) v ->
  (exists lf, dict_get (s_txt a) sg = Some lf /\ lmean lf v /\ name_inst gs sg r a = mk r a lf) \/
  (~ parameter (s_txt a) /\ gives gs (s_txt a) v /\ name_inst gs sg r a = IGlobal r a v).
Proof.
  intros Hs Hp K. inversion K as [|? ? ? ? ? ? ? G|? ? ? ? ? ? ? Hn G| | | | | | | | |]; subst.
  - left. destruct (holds_get _ _ _ _ Hs G) as (lf & G1 & G2). exists lf. unfold name_inst. rewrite G1. auto.
  - right. split; [exact Hn|]. split; [exact G|]. unfold name_inst. destruct (dict_get (s_txt a) sg) eqn:E; [exfalso; eapply Hn, Hp, E|].
    apply dict_get_gives in G. rewrite G. reflexivity.
Qed.
Definition keys_ok (sg : list (text * leaf)) : Prop := forall k lf, dict_get k sg = Some lf -> parameter k.
Lemma dict_get_in {A} k (d : list (text * A)) v : dict_get k d = Some v -> In (k, v) d.
Proof. induction d as [|[a x] d IH]; cbn [dict_get]; [discriminate|]. destruct (teqb_spec k a) as [->|_]; [intros E; injection E as <-; left; reflexivity|right; auto]. Qed.
Lemma scope_in sg ps args l k lf : dict_get k (scope sg ps args l) = Some lf -> exists A J, In (k, (A, J)) (combine ps (combine args l)) /\ In k ps /\
  lf = if is_name_b k A then match dict_get k sg with Some x => x | None => LSub J end else LSub J.
Proof.
  intros H. apply dict_get_in in H. unfold scope in H. apply in_map_iff in H as ([p [A J]] & E & H). cbn [pass] in E. injection E as <- <-.
  exists A, J. split; [exact H|]. split; [eapply in_combine_l; exact H|reflexivity].
Qed.
Lemma scope_has sg ps args l k : List.length ps = List.length args -> List.length args = List.length l -> In k ps -> exists lf, dict_get k (scope sg ps args l) = Some lf.
Proof.
  intros H1 H2 Hk. destruct (dict_get k (scope sg ps args l)) as [lf|] eqn:E; [eauto|]. exfalso. apply dict_get_none in E. apply E.
  replace (names (scope sg ps args l)) with ps; [exact Hk|]. clear E Hk. revert args l H1 H2. unfold scope, names.
  induction ps as [|p ps IH]; intros [|A args] [|J l] H1 H2; try discriminate H1; try discriminate H2; [reflexivity|]. cbn [combine map pass fst]. f_equal. apply IH; auto.
Qed.
Lemma picks_inst gs sg bs ns vals : holds sg bs -> keys_ok sg -> ok_known gs -> upicks free parameter gs bs ns vals ->
  infix_known gs sg ns = names vals /\ Forall2 imean (map (fun k => name_inst gs sg (RList []) (raw k)) (names vals)) (map snd vals) /\
  Forall (fun k => (exists lf, dict_get k sg = Some lf /\ name_inst gs sg (RList []) (raw k) = mk (RList []) (raw k) lf) \/
    (exists v, ~ parameter k /\ gives gs k v /\ name_inst gs sg (RList []) (raw k) = IGlobal (RList []) (raw k) v)) (names vals).
Proof.
  intros Hs Hk Hg. induction 1 as [|n v r l G Hn _ (I1 & I2 & I3)|n v r l Hp G Hn _ (I1 & I2 & I3)|n r l Hf _ (I1 & I2 & I3)]; cbn [names map fst snd].
  - repeat split; constructor.
  - destruct (known_inst [] [] gs bs sg (RList []) (raw n) v Hs Hk (UM_parameter _ _ _ _ _ [] [] gs bs (RList []) (raw n) v G)) as [(lf & K1 & K2 & K3)|(Hn' & _)].
    + cbn [s_txt raw] in K1. unfold infix_known. cbn [filter]. unfold dict_mem at 1. rewrite K1. cbn [orb]. fold (infix_known gs sg r). rewrite I1. split; [reflexivity|].
      split; constructor; [rewrite K3; apply lmean_mk, K2|exact I2|left; eauto|exact I3].
    + exfalso. destruct (holds_get _ _ _ _ Hs G) as (lf & G1 & _). exact (Hn' (Hk _ _ G1)).
  - assert (K0 : dict_get n sg = None) by (destruct (dict_get n sg) eqn:E; [exfalso; eapply Hp, Hk, E|reflexivity]).
    assert (K1 : name_inst gs sg (RList []) (raw n) = IGlobal (RList []) (raw n) v).
    { unfold name_inst. cbn [s_txt raw]. rewrite K0. apply dict_get_gives in G. rewrite G. reflexivity. }
    unfold infix_known. cbn [filter]. unfold dict_mem at 1. rewrite K0. cbn [orb]. unfold dict_mem at 1. rewrite (proj2 (dict_get_gives _ _ _) G). fold (infix_known gs sg r). rewrite I1. split; [reflexivity|].
    destruct (Hg n v G Hp) as [Hd _]. split; constructor; [rewrite K1; constructor; exact Hd|exact I2|right; eauto|exact I3].
  - assert (K0 : dict_get n sg = None) by (destruct (dict_get n sg) eqn:E; [exfalso; eapply (Hfp n Hf), Hk, E|reflexivity]).
    assert (K1 : dict_get n gs = None). { destruct (dict_get n gs) as [x|] eqn:E; [|reflexivity]. apply dict_get_gives in E. destruct (Hg n x E (Hfp n Hf)) as (_ & Hnf & _). contradiction. }
    unfold infix_known. cbn [filter]. unfold dict_mem. rewrite K0, K1. auto.
Qed.
Lemma inst_floppy call gs sg E : ~ unplaced E -> ~ floppy (inst_go ec call gs sg E).
Proof. destruct E; cbn [unplaced inst_go floppy]; auto. destruct (call (s_txt f)) as [[ps body]|]; auto. Qed.
Lemma insts_mean (P : uexp -> node -> Prop) fs gs sg l vs : (forall E v, P E v -> imean (inst ec fs gs sg E) v) -> Forall2 P l vs -> Forall2 imean (map (inst ec fs gs sg) l) vs.
Proof. intros H. induction 1; cbn [map]; constructor; auto. Qed.
Lemma Forall2_length' {A B} (R : A -> B -> Prop) l m : Forall2 R l m -> List.length l = List.length m.
Proof. induction 1; cbn [List.length]; congruence. Qed.
Lemma scope_keys sg ps args l : Forall parameter ps -> keys_ok (scope sg ps args l).
Proof. intros Hp k lf H. apply scope_in in H as (A & J & _ & Hk & _). eapply Forall_forall; eassumption. Qed.
Lemma inst_mean : forall fs used gs bs E v, um fs used gs bs E v -> okfs fs -> ok_known gs -> forall sg, holds sg bs -> keys_ok sg -> imean (inst ec fs gs sg E) v.
Proof.
  apply (umeans_nest ec parse shift free parameter (fun fs used gs bs E v => okfs fs -> ok_known gs -> forall sg, holds sg bs -> keys_ok sg -> imean (inst ec fs gs sg E) v)).
  - intros fs used gs bs v Hd _ _ sg _ _. constructor. exact Hd.
  - intros fs used gs bs r a v G _ _ sg Hs Hk. destruct (holds_get _ _ _ _ Hs G) as (lf & G1 & G2). unfold inst. cbn [inst_go]. unfold name_inst. rewrite G1. apply lmean_mk, G2.
  - intros fs used gs bs r a v Hp G _ Hg sg Hs Hk. unfold inst. cbn [inst_go]. unfold name_inst. destruct (dict_get (s_txt a) sg) eqn:E; [exfalso; eapply Hp, Hk, E|].
    rewrite (proj2 (dict_get_gives _ _ _) G). constructor. apply (Hg _ _ G Hp).
  - intros fs used gs bs l vs _ IH Hok Hg sg Hs Hk. unfold inst. cbn [inst_go]. constructor. eapply insts_mean; [|exact IH]. cbn beta. auto.
  - intros fs used gs bs c a b vc va vb w I1 I2 I3 Hsel Hok Hg sg Hs Hk. unfold inst. cbn [inst_go]. econstructor; [apply I1|apply I2|apply I3|exact Hsel]; auto.
  - intros fs used gs bs f args file pos vs w _ IH Hf Hfn Hd Hok Hg sg Hs Hk. unfold inst. cbn [inst_go]. econstructor; [|exact Hfn|exact Hd]. eapply insts_mean; [|exact IH]. cbn beta. auto.
  - intros fs used gs bs z args file pos vs l w _ IH Hi He Hd Hok Hg sg Hs Hk. unfold inst. cbn [inst_go]. econstructor; [|exact Hi|exact He|exact Hd]. eapply insts_mean; [|exact IH]. cbn beta. auto.
  - intros fs used gs bs E file pos v u IH Hu Hok Hg sg Hs Hk. unfold inst. cbn [inst_go]. econstructor; [|exact Hu]. apply IH; auto.
  - intros fs used gs bs ast t file pos ns vals v Hc Hns Hp Hi Hd Hok Hg sg Hs Hk. unfold inst. cbn [inst_go]. unfold infix_names. rewrite Hns.
    destruct (picks_inst gs sg bs ns vals Hs Hk Hg Hp) as (K1 & K2 & _). rewrite K1. eapply IM_infix; [exact Hc|exact Hns| |exact K2| |exact Hd].
    + rewrite map_length. reflexivity.
    + rewrite <- Hi. f_equal. clear. unfold names. induction vals as [|[k x] vals IH]; cbn [map combine fst snd]; [reflexivity|f_equal; exact IH].
  - intros. constructor.
  - intros fs used gs bs l sq q vs t _ IH Hb Hw Hok Hg sg Hs Hk. unfold inst. cbn [inst_go]. econstructor.
    + eapply insts_mean; [|exact IH]. cbn beta. auto.
    + apply Forall_map. eapply Forall_impl; [|exact Hb]. intros E. apply inst_floppy.
    + rewrite inst_trees. exact Hw.
  - intros fs used gs bs f args file pos vs w later F before Efs D1 IH Hl Hu Hfa Hfb _ IHB Hok Hg sg Hs Hk.
    rewrite (inst_use fs f F before later gs sg args file pos Efs Hok). cbn zeta.
    pose proof Hok as Hok2. rewrite Efs in Hok2. apply okfs_app in Hok2. cbn [okfs] in Hok2. destruct Hok2 as (O1 & O2 & O3 & O4 & O5 & O6 & O7 & _).
    assert (Ml : Forall2 imean (map (inst ec fs gs sg) args) vs) by (eapply insts_mean; [|exact IH]; cbn beta; auto).
    assert (Fl : Forall flat (map (inst ec fs gs sg) args)) by (apply Forall_map; eapply Forall_impl; [|exact Hfa]; intros E; apply inst_flat).
    eapply IM_use; try eassumption.
    + rewrite map_length. exact Hl.
    + apply inst_flat, Hfb.
    + apply own_incl.
    + apply IHB; auto; [|apply scope_keys, O6]. eapply scope_holds; try eassumption; [rewrite map_length; reflexivity|]. eapply args_given; eassumption.
Qed.
(** ** Names at any depth come from the scope *)
Definition clo_scope (sg : list (text * leaf)) (a : text) (lf : leaf) : Prop := dict_get a sg = Some lf \/ exists b A, dict_get b sg = Some (LSub A) /\ deep A a lf.
Lemma in_zip fs gs sg (ps : list text) (args : list uexp) (p : text) (A : uexp) (J : iexp) : In (p, (A, J)) (combine ps (combine args (map (inst ec fs gs sg) args))) -> In (p, A) (combine ps args) /\ In A args /\ J = inst ec fs gs sg A /\ In J (map (inst ec fs gs sg) args).
Proof.
  revert args. induction ps as [|q ps IH]; intros [|B args]; cbn [combine map]; try contradiction. intros [E|E].
  - injection E as -> -> <-. cbn [In]. auto.
  - destruct (IH args E) as (H1 & H2 & H3 & H4). cbn [In]. auto.
Qed.
Lemma own_in ps args p A : In (p, A) (combine ps args) -> is_name_b p A = false -> In p (own ps args).
Proof. intros H E. unfold own. apply in_map_iff. exists (p, A). split; [reflexivity|]. apply filter_In. split; [exact H|]. cbn [fst snd]. rewrite E. reflexivity. Qed.
Lemma own_not ps args p : In p (own ps args) -> exists A, In (p, A) (combine ps args) /\ is_name_b p A = false.
Proof. unfold own. intros H. apply in_map_iff in H as ([q A] & <- & H). apply filter_In in H as [H E]. exists A. split; [exact H|]. cbn [fst snd] in *. destruct (is_name_b q A); [discriminate E|reflexivity]. Qed.
Lemma forall2_in {A B} (R : A -> B -> Prop) l m a b : Forall2 R l m -> In (a, b) (combine l m) -> R a b.
Proof. induction 1; cbn [combine]; [contradiction|]. intros [E|E]; [injection E as <- <-; assumption|auto]. Qed.
Lemma forall2_in3 {A B C} (R : A -> C -> Prop) ps (args : list B) l a b c : Forall2 R ps l -> In (a, (b, c)) (combine ps (combine args l)) -> R a c.
Proof.
  intros H. revert args. induction H; intros [|d args]; cbn [combine]; try contradiction. intros [E|E]; [injection E as <- _ <-; assumption|eauto].
Qed.
Lemma arg_is_name fs used gs bs sg (args : list uexp) vs (ps : list text) (p : text) (A : uexp) (J : iexp) : holds sg bs -> Forall2 (um fs used gs bs) args vs -> Forall parameter ps ->
  In (p, (A, J)) (combine ps (combine args (map (inst ec fs gs sg) args))) -> is_name_b p A = true -> exists r a lf, s_txt a = p /\ dict_get p sg = Some lf /\ J = mk r a lf.
Proof.
  intros Hs Hm Hp H E. apply is_name_spec in E. pose proof (args_given fs used gs bs sg args vs Hs Hm) as Ha.
  assert (Hpp : parameter p) by (eapply Forall_forall; [exact Hp|]; eapply in_combine_l; exact H).
  assert (K : In (A, J) (combine args (map (inst ec fs gs sg) args))) by (eapply in_combine_r; exact H).
  exact (forall2_in _ _ _ _ _ Ha K p E Hpp).
Qed.
Lemma inst_deep : forall fs used gs bs E v, um fs used gs bs E v -> okfs fs -> ok_known gs -> forall sg, holds sg bs -> keys_ok sg ->
  forall a lf, deep (inst ec fs gs sg E) a lf -> clo_scope sg a lf.
Proof.
  assert (L : forall (P : uexp -> node -> Prop) fs gs sg l vs a lf, (forall E v, P E v -> deep (inst ec fs gs sg E) a lf -> clo_scope sg a lf) ->
    Forall2 P l vs -> deeps a lf (map (inst ec fs gs sg) l) -> clo_scope sg a lf).
  { intros P fs gs sg l vs a lf HP. induction 1 as [|E v l vs HE _ IH]; cbn [map deeps]; [contradiction|]. intros [K|K]; eauto. }
  assert (Ln : forall gs sg r a b lf, deep (name_inst gs sg r a) b lf -> clo_scope sg b lf).
  { intros gs sg r a b lf. unfold name_inst. destruct (dict_get (s_txt a) sg) as [x|] eqn:E; [|destruct (dict_get _ gs); contradiction].
    destruct x; cbn [mk deep]; [intros [-> ->]; left; exact E|]. intros [[-> ->]|K]; [left; exact E|right; eauto]. }
  apply (umeans_nest ec parse shift free parameter (fun fs used gs bs E v => okfs fs -> ok_known gs -> forall sg, holds sg bs -> keys_ok sg -> forall a lf, deep (inst ec fs gs sg E) a lf -> clo_scope sg a lf)).
  - contradiction.
  - intros fs used gs bs r a v G _ _ sg _ _ b lf. apply Ln.
  - intros fs used gs bs r a v _ G _ _ sg _ _ b lf. apply Ln.
  - intros fs used gs bs l vs _ IH Hok Hg sg Hs Hk a lf K. eapply L; [|exact IH|exact K]. cbn beta. eauto.
  - intros fs used gs bs c a b vc va vb w I1 I2 I3 Hsel Hok Hg sg Hs Hk x lf [K|[K|K]]; [eapply I1|eapply I2|eapply I3]; eassumption.
  - intros fs used gs bs f args file pos vs w _ IH Hf Hfn Hd Hok Hg sg Hs Hk a lf K. eapply L; [|exact IH|exact K]. cbn beta. eauto.
  - intros fs used gs bs z args file pos vs l w _ IH Hi He Hd Hok Hg sg Hs Hk a lf K. eapply L; [|exact IH|exact K]. cbn beta. eauto.
  - intros fs used gs bs E file pos v u IH Hu Hok Hg sg Hs Hk a lf K. eapply IH; eassumption.
  - intros fs used gs bs ast t file pos ns vals v Hc Hns Hp Hi Hd Hok Hg sg Hs Hk a lf K. unfold inst in K. cbn [inst_go] in K. unfold infix_names in K.
    change (deeps a lf (map (fun k => name_inst gs sg (RList []) (raw k)) (infix_known gs sg (match e_names ec (lstrip t) with Ok ns => ns | _ => [] end)))) in K.
    apply deeps_spec, Exists_exists in K as (E & HE & K). apply in_map_iff in HE as (k & <- & _). eapply Ln, K.
  - contradiction.
  - intros fs used gs bs l sq q vs t _ IH Hb Hw Hok Hg sg Hs Hk a lf K. eapply L; [|exact IH|exact K]. cbn beta. eauto.
  - intros fs used gs bs f args file pos vs w later F before Efs D1 IH Hl Hu Hfa Hfb DB IHB Hok Hg sg Hs Hk a lf.
    rewrite (inst_use fs f F before later gs sg args file pos Efs Hok). cbn zeta.
    pose proof Hok as Hok2. rewrite Efs in Hok2. apply okfs_app in Hok2. cbn [okfs] in Hok2. destruct Hok2 as (O1 & O2 & O3 & O4 & O5 & O6 & O7 & _).
    assert (Ml : Forall2 imean (map (inst ec fs gs sg) args) vs).
    { eapply insts_mean; [|exact D1]. intros E v HE. eapply inst_mean; eassumption. }
    assert (Fl : Forall flat (map (inst ec fs gs sg) args)) by (apply Forall_map; eapply Forall_impl; [|exact Hfa]; intros E; apply inst_flat).
    assert (Hs' : holds (scope sg (f_params F) args (map (inst ec fs gs sg) args)) (combine (f_params F) vs)).
    { eapply scope_holds; try eassumption; [rewrite map_length; reflexivity|]. eapply args_given; eassumption. }
    assert (La : forall J, In J (map (inst ec fs gs sg) args) -> forall b lf', deep J b lf' -> clo_scope sg b lf').
    { intros J HJ b lf' K. eapply L; [|exact IH|eapply deeps_in; eassumption]. cbn beta. eauto. }
    intros [K|[K Hno]]; [eapply L; [|exact IH|exact K]; cbn beta; eauto|].
    destruct (IHB O1 O7 _ Hs' (scope_keys _ _ _ _ O6) a lf K) as [K'|(b & A0 & K' & Kd)]; apply scope_in in K' as (A & J & Hin & _ & E).
    + destruct (is_name_b a A) eqn:En.
      * destruct (arg_is_name _ _ _ _ _ _ _ _ _ _ _ Hs D1 O6 Hin En) as (r & x & lf0 & _ & G & _). rewrite G in E. subst lf. left. exact G.
      * exfalso. apply Hno. eapply own_in; [|exact En]. apply (in_zip _ _ _ _ _ _ _ _ Hin).
    + destruct (is_name_b b A) eqn:En.
      * destruct (arg_is_name _ _ _ _ _ _ _ _ _ _ _ Hs D1 O6 Hin En) as (r & x & lf0 & _ & G & _). rewrite G in E. subst lf0. right. eauto.
      * injection E as ->. eapply La; [|exact Kd]. apply (in_zip _ _ _ _ _ _ _ _ Hin).
Qed.
(** ** Fit environments *)
Notation at_ a lf := (mk (RList []) (raw a) lf).
Definition fits_ok (A : iexp) : Prop := forall F (H N : text -> Prop), W F -> (forall a, H a -> N a) ->
  (forall a lf, deep A a lf -> leaf_fit F H N a (at_ a lf)) -> fit F H N A.
Definition full_ok (A : iexp) : Prop := forall F (H N : text -> Prop), W F -> (forall a, H a -> N a) ->
  (forall a lf, deep A a lf -> ~ H a -> exists v, lookup F a = Some v /\ imean (at_ a lf) v) -> full F H N A.
Definition trans_ok (A : iexp) : Prop := forall a B b lf, deep A a (LSub B) -> deep B b lf -> deep A b lf.
Record coh (used : list text) (sg : list (text * leaf)) : Prop := Coh {
  c_used : forall b lf, clo_scope sg b lf -> In b used;
  c_one : forall b lf lf0, clo_scope sg b lf -> dict_get b sg = Some lf0 -> lf = lf0;
  c_leaf : forall b A, dict_get b sg = Some (LSub A) -> fits_ok A /\ full_ok A /\ trans_ok A }.
Lemma clo_trans used sg a A b lf : coh used sg -> clo_scope sg a (LSub A) -> deep A b lf -> clo_scope sg b lf.
Proof.
  intros C [K|(c & A' & K & Kd)] D; right; [eauto|]. exists c, A'. split; [exact K|]. destruct (c_leaf _ _ C _ _ K) as (_ & _ & T). eapply T; eassumption.
Qed.
Lemma clo_leaf used sg a x b lf : coh used sg -> clo_scope sg a x -> deep (at_ a x) b lf -> clo_scope sg b lf.
Proof.
  intros C K D. destruct x; cbn [mk deep] in D.
  - destruct D as [-> ->]. exact K.
  - destruct D as [[-> ->]|D]; [exact K|]. eapply clo_trans; eassumption.
Qed.
Lemma name_ok used gs bs sg fs r a v : coh used sg -> ok_known gs -> holds sg bs -> keys_ok sg -> um fs used gs bs (UName r a) v ->
  fits_ok (name_inst gs sg r a) /\ full_ok (name_inst gs sg r a) /\ trans_ok (name_inst gs sg r a).
Proof.
  intros C Hg Hs Hk D. destruct (known_inst _ _ _ _ _ _ _ _ Hs Hk D) as [(lf & G & L & ->)|(Hp & G & ->)].
  - destruct lf as [w|A]; cbn [mk].
    + split; [|split].
      * intros F H N HW Hs' Hl Hn. destruct (Hl (s_txt a) (LVal w)) as (x & X1 & X2); [split; reflexivity|exact Hn|]. exists x. split; [exact X1|].
        destruct X2 as [X2|X2]; [left; exact X2|right]. exact (ires_leaf (RList []) (raw (s_txt a)) r a (LVal w) N true x eq_refl X2).
      * intros F H N HW Hs' Hl Hn. destruct (Hl (s_txt a) (LVal w)) as (x & X1 & X2); [split; reflexivity|exact Hn|]. cbn [mk] in X2. inversion X2; subst. exact X1.
      * intros b B c lf [_ K]. discriminate K.
    + destruct (c_leaf _ _ C _ _ G) as (C1 & C2 & C3). split; [|split].
      * intros F H N HW Hs' Hl. split.
        -- intros Hn. destruct (Hl (s_txt a) (LSub A)) as (x & X1 & X2); [left; split; reflexivity|exact Hn|]. exists x. split; [exact X1|].
           destruct X2 as [X2|X2]; [left; exact X2|right]. exact (ires_leaf (RList []) (raw (s_txt a)) r a (LSub A) N true x eq_refl X2).
        -- apply C1; auto. intros b lf K. apply Hl. right. exact K.
      * intros F H N HW Hs' Hl. split.
        -- intros Hn. destruct (Hl (s_txt a) (LSub A)) as (x & X1 & X2); [left; split; reflexivity|exact Hn|]. exists x. split; [exact X1|]. cbn [mk] in X2. inversion X2; subst. assumption.
        -- apply C2; auto. intros b lf K. apply Hl. right. exact K.
      * intros b B c lf [[_ K]|K] Kd; [injection K as ->; right; exact Kd|]. right. eapply C3; eassumption.
  - split; [|split].
    + intros F H N HW _ _. apply (Hg _ _ G Hp). exact HW.
    + intros F H N HW _ _. exact Logic.I.
    + intros b B c lf [].
Qed.
Lemma infix_frame_upicks gs bs F ns vals : upicks free parameter gs bs ns vals -> (forall n, In n (names vals) -> exists w, lookup F n = Some w) -> (forall n, free n -> lookup F n = None) ->
  infix_frame F ns = map (fun k => (k, NVar (RList []) (raw k))) (names vals).
Proof.
  intros H Hs Hf. unfold infix_frame.
  assert (Hin : forall ns vals, upicks free parameter gs bs ns vals -> forall n, In n (names vals) -> In n ns).
  { clear. induction 1; cbn [names map fst In]; intros m Hm; auto; destruct Hm as [<-|Hm]; auto. }
  assert (K : forall acc, (forall n, In n (names acc) -> ~ In n (names vals)) ->
    fold_left (fun f n => match lookup F n with Some _ => frame_set n (NVar (RList []) (raw n)) f | None => f end) ns acc = acc ++ map (fun k => (k, NVar (RList []) (raw k))) (names vals)).
  { assert (Step : forall n (v : node) r l (acc : frame), ~ In n r -> upicks free parameter gs bs r l -> (forall m, In m (names ((n, v) :: l)) -> exists w, lookup F m = Some w) ->
      ((forall m, In m (names l) -> exists w, lookup F m = Some w) -> forall acc : frame, (forall m, In m (names acc) -> ~ In m (names l)) ->
         fold_left (fun f n => match lookup F n with Some _ => frame_set n (NVar (RList []) (raw n)) f | None => f end) r acc = acc ++ map (fun k => (k, NVar (RList []) (raw k))) (names l)) ->
      (forall m, In m (names acc) -> ~ In m (names ((n, v) :: l))) ->
      fold_left (fun f n => match lookup F n with Some _ => frame_set n (NVar (RList []) (raw n)) f | None => f end) (n :: r) acc = acc ++ map (fun k => (k, NVar (RList []) (raw k))) (names ((n, v) :: l))).
    { intros n v r l acc Hn Hu Hl IH Ha. cbn [fold_left]. destruct (Hl n) as (w & ->); [left; reflexivity|].
      rewrite IH.
      + rewrite frame_set_fresh; [rewrite <- app_assoc; reflexivity|]. intros Hi. apply (Ha n Hi). left. reflexivity.
      + intros m Hm. apply Hl. right. exact Hm.
      + intros m Hm. rewrite frame_set_fresh in Hm by (intros Hi; apply (Ha n Hi); left; reflexivity).
        unfold names in Hm. rewrite map_app in Hm. apply in_app_or in Hm as [Hm|[<-|[]]].
        * intros Hl'. apply (Ha m Hm). right. exact Hl'.
        * intros Hl'. apply Hn. eapply Hin; eassumption. }
    revert Hs. induction H as [|n v r l G Hn Hu IH|n v r l Hp G Hn Hu IH|n r l Hfr Hu IH]; intros Hs acc Ha.
    - cbn [fold_left names map]. rewrite app_nil_r. reflexivity.
    - eapply Step; eassumption.
    - eapply Step; eassumption.
    - cbn [fold_left]. rewrite (Hf n Hfr). apply IH; assumption. }
  rewrite K; [reflexivity|]. intros n [].
Qed.
Lemma frame_lookup fr F a : lookup (fr :: F) a = match dict_get a fr with Some v => Some v | None => lookup F a end.
Proof. reflexivity. Qed.
Definition all_ok (A : iexp) : Prop := fits_ok A /\ full_ok A /\ trans_ok A.
Lemma list_fits F (H N : text -> Prop) l : Forall fits_ok l -> W F -> (forall a, H a -> N a) -> (forall a lf, deeps a lf l -> leaf_fit F H N a (at_ a lf)) -> Forall (fit F H N) l.
Proof. intros K HW Hs Hl. rewrite Forall_forall in *. intros E HE. apply K; auto. intros a lf Kd. apply Hl. eapply deeps_in; eassumption. Qed.
Lemma list_fulls F (H N : text -> Prop) l : Forall full_ok l -> W F -> (forall a, H a -> N a) -> (forall a lf, deeps a lf l -> ~ H a -> exists v, lookup F a = Some v /\ imean (at_ a lf) v) -> Forall (full F H N) l.
Proof. intros K HW Hs Hl. rewrite Forall_forall in *. intros E HE. apply K; auto. intros a lf Kd. apply Hl. eapply deeps_in; eassumption. Qed.
Lemma list_trans l a B b lf : Forall trans_ok l -> deeps a (LSub B) l -> deep B b lf -> deeps b lf l.
Proof.
  intros K D Kd. apply deeps_spec, Exists_exists in D as (E & HE & D). apply deeps_spec, Exists_exists. exists E. split; [exact HE|].
  rewrite Forall_forall in K. eapply K; eassumption.
Qed.
Lemma insts_ok (P : uexp -> node -> Prop) fs gs sg l vs : (forall E v, P E v -> all_ok (inst ec fs gs sg E)) -> Forall2 P l vs ->
  Forall fits_ok (map (inst ec fs gs sg) l) /\ Forall full_ok (map (inst ec fs gs sg) l) /\ Forall trans_ok (map (inst ec fs gs sg) l).
Proof.
  intros H. induction 1 as [|E v l vs HE _ (I1 & I2 & I3)]; cbn [map]; [repeat split; constructor|]. destruct (H E v HE) as (H1 & H2 & H3).
  split; [|split]; constructor; assumption.
Qed.
Lemma scope_coh fs used gs bs sg ps args vs : coh used sg -> holds sg bs -> keys_ok sg -> okfs fs -> ok_known gs -> Forall2 (um fs used gs bs) args vs -> Forall parameter ps ->
  List.length ps = List.length args -> Forall2 (fun p A => In p used -> is_name p A) ps args ->
  Forall fits_ok (map (inst ec fs gs sg) args) -> Forall full_ok (map (inst ec fs gs sg) args) -> Forall trans_ok (map (inst ec fs gs sg) args) ->
  coh (ps ++ used) (scope sg ps args (map (inst ec fs gs sg) args)).
Proof.
  intros C Hs Hk Hok Hg D Hp Hl Hu K1 K2 K3.
  assert (La : forall J, In J (map (inst ec fs gs sg) args) -> forall b lf', deep J b lf' -> clo_scope sg b lf').
  { intros J HJ b lf' K. apply in_map_iff in HJ as (A & <- & HA). assert (Hv : exists v, um fs used gs bs A v).
    { clear - D HA. induction D; [contradiction|]. destruct HA as [<-|HA]; eauto. }
    destruct Hv as (v & Hv). eapply inst_deep; eassumption. }
  assert (Lc : forall b A, dict_get b (scope sg ps args (map (inst ec fs gs sg) args)) = Some (LSub A) ->
    In A (map (inst ec fs gs sg) args) \/ dict_get b sg = Some (LSub A)).
  { intros b A K. apply scope_in in K as (A0 & J & Hin & _ & E). destruct (is_name_b b A0) eqn:En.
    - destruct (arg_is_name _ _ _ _ _ _ _ _ _ _ _ Hs D Hp Hin En) as (r & x & lf0 & _ & G & _). rewrite G in E. subst lf0. right. exact G.
    - injection E as ->. left. apply (in_zip _ _ _ _ _ _ _ _ Hin). }
  assert (Ld : forall b lf, clo_scope (scope sg ps args (map (inst ec fs gs sg) args)) b lf ->
    dict_get b (scope sg ps args (map (inst ec fs gs sg) args)) = Some lf \/ clo_scope sg b lf).
  { intros b lf [K|(c & A & K & Kd)]; [left; exact K|right]. destruct (Lc _ _ K) as [K'|K']; [eapply La; eassumption|right; eauto]. }
  split.
  - intros b lf K. destruct (Ld b lf K) as [K'|K']; apply in_or_app; [left|right; eapply c_used; eassumption].
    apply scope_in in K' as (A & J & _ & Hb & _). exact Hb.
  - intros b lf lf0 K K0. destruct (Ld b lf K) as [K'|K']; [congruence|]. pose proof (c_used _ _ C _ _ K') as Hb.
    apply scope_in in K0 as (A & J & Hin & _ & E). assert (En : is_name_b b A = true).
    { apply is_name_spec. eapply (forall2_in _ _ _ _ _ Hu); [|exact Hb]. apply (in_zip _ _ _ _ _ _ _ _ Hin). }
    rewrite En in E. destruct (arg_is_name _ _ _ _ _ _ _ _ _ _ _ Hs D Hp Hin En) as (r & x & lf1 & _ & G & _). rewrite G in E. subst lf1.
    exact (c_one _ _ C _ _ _ K' G).
  - intros b A K. destruct (Lc _ _ K) as [K'|K']; [|eapply c_leaf; eassumption]. rewrite Forall_forall in K1, K2, K3. split; [|split]; auto.
Qed.
(** the frame of a call: what it gives to the names of the body *)
Lemma inst_ok : forall fs used gs bs E v, um fs used gs bs E v -> okfs fs -> ok_known gs -> forall sg, holds sg bs -> keys_ok sg -> coh used sg -> all_ok (inst ec fs gs sg E).
Proof.
  apply (umeans_nest ec parse shift free parameter (fun fs used gs bs E v => okfs fs -> ok_known gs -> forall sg, holds sg bs -> keys_ok sg -> coh used sg -> all_ok (inst ec fs gs sg E))).
  - intros. split; [|split]; [intros F0 H9 N _ _ _; exact Logic.I|intros F0 H9 N _ _ _; exact Logic.I|intros a B b lf []].
  - intros fs used gs bs r a v G Hok Hg sg Hs Hk C. eapply (name_ok used gs bs sg fs r a v); try eassumption. apply UM_parameter. exact G.
  - intros fs used gs bs r a v Hp G Hok Hg sg Hs Hk C. eapply (name_ok used gs bs sg fs r a v); try eassumption. apply UM_known; assumption.
  - intros fs used gs bs l vs _ IH Hok Hg sg Hs Hk C. destruct (insts_ok (fun E v => okfs fs -> ok_known gs -> forall sg, holds sg bs -> keys_ok sg -> coh used sg -> all_ok (inst ec fs gs sg E)) fs gs sg l vs (fun E v K => K Hok Hg sg Hs Hk C) IH) as (I1 & I2 & I3).
    split; [|split]; [intros F H N HW Hsub Hl; apply fits_spec, list_fits; assumption|intros F H N HW Hsub Hl; apply fulls_spec, list_fulls; assumption|].
    intros a B b lf K1 K2. exact (list_trans _ a B b lf I3 K1 K2).
  - intros fs used gs bs c a b vc va vb w I1 I2 I3 Hsel Hok Hg sg Hs Hk C.
    destruct (I1 Hok Hg sg Hs Hk C) as (A1 & A2 & A3). destruct (I2 Hok Hg sg Hs Hk C) as (B1 & B2 & B3). destruct (I3 Hok Hg sg Hs Hk C) as (C1 & C2 & C3).
    split; [|split].
    + intros F H N HW Hsub Hl. split; [|split]; [apply A1|apply B1|apply C1]; auto; intros x lf K; apply Hl; [left|right; left|right; right]; exact K.
    + intros F H N HW Hsub Hl. split; [|split]; [apply A2|apply B2|apply C2]; auto; intros x lf K; apply Hl; [left|right; left|right; right]; exact K.
    + intros x B y lf [K|[K|K]] Kd; [left|right; left|right; right]; [eapply A3|eapply B3|eapply C3]; eassumption.
  - intros fs used gs bs f args file pos vs w _ IH Hf Hfn Hd Hok Hg sg Hs Hk C. destruct (insts_ok (fun E v => okfs fs -> ok_known gs -> forall sg, holds sg bs -> keys_ok sg -> coh used sg -> all_ok (inst ec fs gs sg E)) fs gs sg args vs (fun E v K => K Hok Hg sg Hs Hk C) IH) as (I1 & I2 & I3).
    split; [|split]; [|intros F H N HW Hsub Hl; apply fulls_spec, list_fulls; assumption|].
    + intros F H N HW Hsub Hl. split; [apply Wfree; assumption|]. apply fits_spec, list_fits; assumption.
    + intros a B b lf K1 K2. exact (list_trans _ a B b lf I3 K1 K2).
  - intros fs used gs bs z args file pos vs l w _ IH Hi He Hd Hok Hg sg Hs Hk C. destruct (insts_ok (fun E v => okfs fs -> ok_known gs -> forall sg, holds sg bs -> keys_ok sg -> coh used sg -> all_ok (inst ec fs gs sg E)) fs gs sg args vs (fun E v K => K Hok Hg sg Hs Hk C) IH) as (I1 & I2 & I3).
    split; [|split]; [intros F H N HW Hsub Hl; apply fits_spec, list_fits; assumption|intros F H N HW Hsub Hl; apply fulls_spec, list_fulls; assumption|].
    intros a B b lf K1 K2. exact (list_trans _ a B b lf I3 K1 K2).
  - intros fs used gs bs E file pos v u IH Hu Hok Hg sg Hs Hk C. destruct (IH Hok Hg sg Hs Hk C) as (A1 & A2 & A3). split; [|split].
    + intros F H N HW Hsub Hl. apply A1; auto.
    + intros F H N HW Hsub Hl. apply A2; auto.
    + intros a B b lf K1 K2. exact (A3 a B b lf K1 K2).
  - intros fs used gs bs ast t file pos ns vals v Hc Hns Hp Hi Hd Hok Hg sg Hs Hk C. unfold inst. cbn [inst_go]. unfold infix_names. rewrite Hns.
    destruct (picks_inst gs sg bs ns vals Hs Hk Hg Hp) as (K1 & K2 & K3). rewrite K1.
    set (leaves := map (fun k => name_inst gs sg (RList []) (raw k)) (names vals)).
    assert (Hname : forall k, In k (names vals) -> exists v, um fs used gs bs (UName (RList []) (raw k)) v).
    { clear - Hp. induction Hp; cbn [names map fst In]; intros k K; [contradiction| | |auto].
      - destruct K as [<-|K]; [|auto]. exists v. apply UM_parameter. assumption.
      - destruct K as [<-|K]; [|auto]. exists v. apply UM_known; assumption. }
    assert (Hall : Forall all_ok leaves).
    { unfold leaves. apply Forall_map, Forall_forall. intros k Hin. destruct (Hname k Hin) as (x & Hx). exact (name_ok used gs bs sg fs (RList []) (raw k) x C Hg Hs Hk Hx). }
    assert (I1 : Forall fits_ok leaves) by (eapply Forall_impl; [|exact Hall]; intros A (K & _); exact K).
    assert (I2 : Forall full_ok leaves) by (eapply Forall_impl; [|exact Hall]; intros A (_ & K & _); exact K).
    assert (I3 : Forall trans_ok leaves) by (eapply Forall_impl; [|exact Hall]; intros A (_ & _ & K); exact K).
    split; [|split]; [|intros F H N HW Hsub Hl; apply fulls_spec, list_fulls; assumption|].
    + intros F H N HW Hsub Hl. split; [|split].
      * intros Hcl. apply (infix_frame_upicks gs bs); [exact Hp| |intros n Hf; apply Wfree; assumption].
        intros n Hn. pose proof (proj1 (Forall_forall _ _) K3 n Hn) as [(lf & G & En)|(x & Hnp & G & En)].
        -- change (cleanl H leaves) in Hcl. apply cleanl_spec in Hcl. assert (Hc1 : clean H (at_ n lf)).
           { eapply Forall_forall; [exact Hcl|]. unfold leaves. apply in_map_iff. exists n. split; [exact En|exact Hn]. }
           destruct (Hl n lf) as (x & X1 & _); [|destruct lf; exact Hc1|eauto].
           apply (deeps_in n lf (at_ n lf)); [unfold leaves; apply in_map_iff; exists n; split; [exact En|exact Hn]|]. destruct lf; [split; reflexivity|left; split; reflexivity].
        -- exists x. apply (Hg n x G Hnp). exact HW.
      * unfold leaves. rewrite map_map. apply map_ext. intros k. apply name_tree.
      * apply fits_spec, list_fits; assumption.
    + intros a B b lf D1 D2. exact (list_trans _ a B b lf I3 D1 D2).
  - intros. split; [|split]; [intros F0 H9 N _ _ _; exact Logic.I|intros F0 H9 N _ _ _; exact Logic.I|intros a B b lf []].
  - intros fs used gs bs l sq q vs t _ IH Hb Hw Hok Hg sg Hs Hk C. destruct (insts_ok (fun E v => okfs fs -> ok_known gs -> forall sg, holds sg bs -> keys_ok sg -> coh used sg -> all_ok (inst ec fs gs sg E)) fs gs sg l vs (fun E v K => K Hok Hg sg Hs Hk C) IH) as (I1 & I2 & I3).
    split; [|split]; [intros F H N HW Hsub Hl; apply fits_spec, list_fits; assumption|intros F H N HW Hsub Hl; apply fulls_spec, list_fulls; assumption|].
    intros a B b lf K1 K2. exact (list_trans _ a B b lf I3 K1 K2).
  - intros fs used gs bs f args file pos vs w later F before Efs D1 IH Hl Hu Hfa Hfb DB IHB Hok Hg sg Hs Hk C.
    pose proof (inst_deep fs used gs bs _ _ (UM_use ec parse shift free parameter fs used gs bs f args file pos vs w later F before Efs D1 Hl Hu Hfa Hfb DB) Hok Hg sg Hs Hk) as Hdeep.
    rewrite (inst_use fs f F before later gs sg args file pos Efs Hok) in *. cbn zeta in *.
    pose proof Hok as Hok2. rewrite Efs in Hok2. apply okfs_app in Hok2. cbn [okfs] in Hok2. destruct Hok2 as (O1 & O2 & O3 & O4 & O5 & O6 & O7 & O8).
    destruct (insts_ok (fun E v => okfs fs -> ok_known gs -> forall sg, holds sg bs -> keys_ok sg -> coh used sg -> all_ok (inst ec fs gs sg E)) fs gs sg args vs (fun E v K => K Hok Hg sg Hs Hk C) IH) as (I1 & I2 & I3).
    assert (Ml : Forall2 imean (map (inst ec fs gs sg) args) vs).
    { eapply insts_mean; [|exact D1]. intros E v HE. eapply inst_mean; eassumption. }
    assert (Fl : Forall flat (map (inst ec fs gs sg) args)) by (apply Forall_map; eapply Forall_impl; [|exact Hfa]; intros E; apply inst_flat).
    set (ps := f_params F) in *. set (l := map (inst ec fs gs sg) args) in *. set (sg' := scope sg ps args l) in *. set (own := own ps args) in *.
    assert (Hlen : List.length args = List.length l) by (unfold l; rewrite map_length; reflexivity).
    assert (Hs' : holds sg' (combine ps vs)).
    { eapply scope_holds; try eassumption. eapply args_given; eassumption. }
    assert (Hk' : keys_ok sg') by (apply scope_keys, O6).
    assert (C' : coh (ps ++ used) sg') by (eapply scope_coh; eassumption).
    assert (Hvs : List.length ps = List.length vs) by (rewrite Hl; apply (Forall2_length' _ _ _ D1)).
    destruct (IHB O1 O7 sg' Hs' Hk' C') as (B1 & B2 & B3). set (B := inst ec before (f_known F) sg' (f_body F)) in *.
    (* names of the scope *)
    assert (La : forall J, In J l -> forall b lf', deep J b lf' -> clo_scope sg b lf').
    { intros J HJ y lf' K. apply Hdeep. left. eapply deeps_in; eassumption. }
    assert (Hold : forall y lf, clo_scope sg y lf -> ~ In y own).
    { intros y lf K Ho. apply own_not in Ho as (A & Hin & En). pose proof (forall2_in _ _ _ _ _ Hu Hin (c_used _ _ C _ _ K)) as E. apply is_name_spec in E. congruence. }
    assert (Hnew : forall a lf, deep B a lf -> In a ps -> exists A J, In (a, (A, J)) (combine ps (combine args l)) /\ In J l /\
      ((In a own /\ lf = LSub J) \/ (exists r x, s_txt x = a /\ J = mk r x lf /\ clo_scope sg a lf))).
    { intros a lf K Ha. pose proof (inst_deep before (ps ++ used) (f_known F) (combine ps vs) (f_body F) w DB O1 O7 sg' Hs' Hk' a lf K) as Kc.
      destruct (scope_has sg ps args l a Hl Hlen Ha) as (lf0 & G0). pose proof (c_one _ _ C' _ _ _ Kc G0) as E0. subst lf0.
      pose proof G0 as G1. apply scope_in in G1 as (A & J & Hin & _ & E). destruct (in_zip _ _ _ _ _ _ _ _ Hin) as (Z1 & Z2 & Z3 & Z4). exists A, J. split; [exact Hin|]. split; [exact Z4|].
      destruct (is_name_b a A) eqn:En.
      - right. destruct (arg_is_name _ _ _ _ _ _ _ _ _ _ _ Hs D1 O6 Hin En) as (r & x & lf1 & X1 & X2 & X3). rewrite X2 in E. subst lf1. exists r, x. split; [exact X1|]. split; [exact X3|left; exact X2].
      - left. split; [|exact E]. eapply own_in; eassumption. }
    assert (Hout : forall a lf, deep B a lf -> ~ In a own -> deep (IUse f ps own l B file pos) a lf) by (intros a lf K1 K2; right; split; assumption).
    assert (Hparts : forall (N : text -> Prop) fr, partly N ps l fr -> forall k, dict_mem k fr = true -> parameter k).
    { intros N fr (_ & P2 & _) k K. apply P2 in K. eapply Forall_forall; eassumption. }
    assert (Hnotin : forall (N : text -> Prop) fr, partly N ps l fr -> forall k, ~ In k ps -> dict_get k fr = None).
    { intros N fr (_ & P2 & _) k K. destruct (dict_get k fr) eqn:E; [|reflexivity]. exfalso. apply K, P2. unfold dict_mem. rewrite E. reflexivity. }
    (* the names of a leaf of the caller *)
    assert (Hlo : forall (N N' : text -> Prop) a lf x, clo_scope sg a lf -> (forall y, ~ In y own -> N' y -> N y) -> ires N true (at_ a lf) x -> ires N' true (at_ a lf) x).
    { intros N N' a lf x K Hn. apply ires_avoid. intros y lf' Kd. apply Hn. eapply Hold, clo_leaf; eassumption. }
    assert (Hafter : forall (N : text -> Prop) y, ~ In y own -> after N ps own y -> N y).
    { intros N y Hy [[K _]|[_ [K|K]]]; [exact K|contradiction|exact K]. }
    split; [|split].
    + intros F0 H N HW Hsub Hfit. split; [apply fits_spec, list_fits; try assumption; intros a lf K; apply Hfit; left; exact K|]. split; [|split; [|split]].
      * destruct (O8 used vs w DB Hvs ltac:(eapply holds_data; eassumption) Hfb) as (b & dflt & Q1 & Q2). exists b, dflt. split; [apply Q1, HW|]. intros H0 Hd0. apply Q2; assumption.
      * intros fr Hfr. apply B1; [apply Wframe; [exact HW|eapply Hparts; exact Hfr]|auto|]. intros a lf K Hn. rewrite frame_lookup. destruct (text_dec a ps) as [Ha|Ha].
        -- destruct (Hnew a lf K Ha) as (A & J & Hin & HJ & Hcase). destruct Hfr as (_ & _ & P3). destruct (forall2_in3 _ _ _ _ _ _ _ P3 Hin) as (x & X1 & X2).
           rewrite X1. exists x. split; [reflexivity|]. destruct X2 as [->|X2]; [left; split; [reflexivity|intros [_ K']; contradiction]|right].
           destruct Hcase as [[Ho ->]|(r & y & Ey & -> & Kc)].
           ++ right. right. right. eapply ires_less; [| |exact X2]; [|auto]. intros y [Hy _]. exact Hy.
           ++ apply (ires_leaf r y); [exact Ey|]. eapply ires_less; [| |exact X2]; [|auto]. intros z [Hz _]. exact Hz.
        -- rewrite (Hnotin N fr Hfr a Ha). assert (Ho : ~ In a own) by (intros K'; apply Ha; eapply own_incl; exact K').
           destruct (Hfit a lf (Hout a lf K Ho)) as (x & X1 & X2); [intros K'; apply Hn; split; [apply Hsub, K'|exact Ha]|]. exists x. split; [exact X1|].
           destruct X2 as [[-> X2]|X2]; [left; split; [reflexivity|intros [K' _]; contradiction]|right]. eapply ires_less; [| |exact X2]; [|auto]. intros z [Hz _]. exact Hz.
      * intros fr Hfr Hop. apply B1; [apply Wframe; [exact HW|eapply Hparts; exact Hfr]|intros y Hy; left; exact Hy|]. intros a lf K Hn. rewrite frame_lookup. destruct (text_dec a ps) as [Ha|Ha].
        -- destruct (Hnew a lf K Ha) as (A & J & Hin & HJ & Hcase). destruct Hfr as (P1 & _ & P3). destruct (forall2_in3 _ _ _ _ _ _ _ P3 Hin) as (x & X1 & X2).
           rewrite X1. exists x. split; [reflexivity|]. destruct X2 as [->|X2].
           { exfalso. apply (opens_get a fr P1) in X1. rewrite Hop in X1. exact X1. }
           right. destruct Hcase as [[Ho ->]|(r & y & Ey & -> & Kc)].
           ++ right. right. right. eapply ires_avoid; [|exact X2]. intros z lf' Kd. apply Hafter. eapply Hold, La; eassumption.
           ++ apply (Hlo N); [exact Kc|apply Hafter|]. apply (ires_leaf r y); [exact Ey|]. exact X2.
        -- rewrite (Hnotin N fr Hfr a Ha). assert (Ho : ~ In a own) by (intros K'; apply Ha; eapply own_incl; exact K').
           pose proof (Hout a lf K Ho) as Kd. destruct (Hfit a lf Kd) as (x & X1 & X2); [intros K'; apply Hn; split; [apply Hsub, K'|exact Ha]|]. exists x. split; [exact X1|].
           destruct X2 as [[-> X2]|X2]; [left; split; [reflexivity|intros K'; apply X2, Hafter; assumption]|right]. apply (Hlo N); [apply Hdeep, Kd|apply Hafter|exact X2].
      * apply B1; [exact HW|intros a [Ha|Ha]; [left; auto|right; exact Ha]|]. intros a lf K Hn. assert (Ho : ~ In a own) by (intros K'; apply Hn; right; exact K').
        pose proof (Hout a lf K Ho) as Kd. destruct (Hfit a lf Kd) as (x & X1 & X2); [intros K'; apply Hn; left; exact K'|]. exists x. split; [exact X1|].
        destruct X2 as [[-> X2]|X2]; [left; split; [reflexivity|intros [K'|K']; contradiction]|right]. apply (Hlo N); [apply Hdeep, Kd| |exact X2]. intros y Hy [K'|K']; [exact K'|contradiction].
    + intros F0 H N HW Hsub Hfull. split; [apply fulls_spec, list_fulls; try assumption; intros a lf K; apply Hfull; left; exact K|]. split.
      * intros fr Hfr Hfi. apply B2; [apply Wframe; [exact HW|eapply Hparts; exact Hfr]|intros y Hy; left; exact Hy|]. intros a lf K Hn. rewrite frame_lookup. destruct (text_dec a ps) as [Ha|Ha].
        -- destruct (Hnew a lf K Ha) as (A & J & Hin & HJ & Hcase). destruct (forall2_in3 _ _ _ _ _ _ _ Hfi Hin) as (x & X1 & X2).
           rewrite X1. exists x. split; [reflexivity|]. destruct Hcase as [[Ho ->]|(r & y & Ey & -> & Kc)].
           ++ cbn [mk]. constructor; [|exact X2]. eapply Forall_forall; eassumption.
           ++ eapply imean_leaf. exact X2.
        -- rewrite (Hnotin N fr Hfr a Ha). assert (Ho : ~ In a own) by (intros K'; apply Ha; eapply own_incl; exact K').
           apply Hfull; [apply Hout; assumption|]. intros K'. apply Hn. split; [apply Hsub, K'|exact Ha].
      * apply B2; [exact HW|intros a [Ha|Ha]; [left; auto|right; exact Ha]|]. intros a lf K Hn. assert (Ho : ~ In a own) by (intros K'; apply Hn; right; exact K').
        apply Hfull; [apply Hout; assumption|]. intros K'. apply Hn. left. exact K'.
    + intros a A y lf K Kd. pose proof (Hdeep a (LSub A) K) as Kc. destruct K as [K|[K Ho]]; [left; exact (list_trans _ a A y lf I3 K Kd)|].
      right. split; [eapply B3; eassumption|]. eapply Hold, clo_trans; eassumption.
Qed.
End Inst.
