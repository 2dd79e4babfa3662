(** Trees of bodies as expressions with calls (proofs only). *)
From Coq Require Import List NArith ZArith Bool.
From Verif Require Import PyStr PyStrFacts Ast Final Eval EnvSpec EvalSpec TrimSpec ExprSpec CoreSpec RunSpec UseSpec.
Import ListNotations.
Open Scope list_scope.
Section Read.
(** the names of the functions, and all names that have a meaning *)
Variables fns known : list text.
Definition infix_text (ast : node) : text := match ast with NText [NPlain s _ _] _ _ => s_txt s | _ => [] end.
Fixpoint read (x : node) : uexp :=
  match x with
  | NVar r a => UName r a
  | NList l => UList (map read l)
  | NCond c a b => UCond (read c) (read a) (read b)
  | NText l sq q => UText (map read l) sq q
  | NInfix ast file pos => UInfix ast (infix_text ast) file pos
  | NApply f args [] file pos =>
      match f with
      | NVar (RList []) a =>
          if mem (s_txt a) fns then UUse a (map read args) file pos
          else if mem (s_txt a) known then match args with [] => UShow (read f) file pos | _ => UValue x end
          else UCall a (map read args) file pos
      | NInt z => match args with [] => UShow (UValue f) file pos | _ => UPick z (map read args) file pos end
      | _ => match args with [] => UShow (read f) file pos | _ => UValue x end
      end
  | _ => UValue x
  end.
Lemma read_tree : forall x, utree (read x) = x.
Proof.
  fix IH 1. intros x. assert (L : forall l, map utree (map read l) = l -> True) by auto.
  destruct x; try reflexivity.
  - cbn [read utree]. f_equal. rewrite map_map. induction l as [|y l IHl]; [reflexivity|]. cbn [map]. f_equal; [apply IH|exact IHl].
  - cbn [read utree]. f_equal. rewrite map_map. induction l as [|y l IHl]; [reflexivity|]. cbn [map]. f_equal; [apply IH|exact IHl].
  - assert (A : map utree (map read args) = args).
    { rewrite map_map. clear L. induction args as [|y l IHl]; [reflexivity|]. cbn [map]. f_equal; [apply IH|exact IHl]. }
    pose proof (IH x) as Hf. destruct named; [|destruct x; reflexivity].
    assert (S : utree (match args with [] => UShow (read x) file pos | _ => UValue (NApply x args [] file pos) end) = NApply x args [] file pos).
    { destruct args; [cbn [utree]; rewrite Hf|]; reflexivity. }
    destruct x; try exact S.
    + cbn [read]. destruct args; [exact S|]. cbn [utree]. rewrite A. reflexivity.
    + destruct r as [|[|]]; try exact S. cbn [read]. destruct (mem (s_txt a) fns); [cbn [utree]; rewrite A; reflexivity|]. destruct (mem (s_txt a) known); [exact S|]. cbn [utree]; rewrite A; reflexivity.
  - cbn [read utree]. rewrite !IH. reflexivity.
Qed.
Lemma no_choices_all l : (fix all l := match l with [] => True | x :: l => no_choices x /\ all l end) l <-> Forall no_choices l.
Proof. induction l as [|x l IH]; [split; [constructor|auto]|]. rewrite IH, Forall_cons_iff. tauto. Qed.
Lemma apart_all l : (fix all l := match l with [] => True | x :: l => choices_apart x /\ all l end) l <-> Forall choices_apart l.
Proof. induction l as [|x l IH]; [split; [constructor|auto]|]. rewrite IH, Forall_cons_iff. tauto. Qed.
Lemma no_choice_all l : (fix all l := match l with [] => True | E :: l => no_choice E /\ all l end) l <-> Forall no_choice l.
Proof. induction l as [|x l IH]; [split; [constructor|auto]|]. rewrite IH, Forall_cons_iff. tauto. Qed.
Lemma simple_all l : (fix all l := match l with [] => True | E :: l => simple_choices E /\ all l end) l <-> Forall simple_choices l.
Proof. induction l as [|x l IH]; [split; [constructor|auto]|]. rewrite IH, Forall_cons_iff. tauto. Qed.
Lemma read_no_choice : forall x, no_choices (bare x) -> no_choice (read x).
Proof.
  fix IH 1. intros x. destruct x; try (intros _; exact Logic.I).
  - cbn [bare no_choices read no_choice]. rewrite no_choices_all, no_choice_all. induction l as [|y l IHl]; intros H; constructor; inversion H; subst; [apply IH; assumption|apply IHl; assumption].
  - cbn [bare no_choices read no_choice]. rewrite no_choices_all, no_choice_all. induction l as [|y l IHl]; intros H; constructor; inversion H; subst; [apply IH; assumption|apply IHl; assumption].
  - cbn [bare no_choices]. rewrite no_choices_all. intros [Hf Ha]. assert (A : Forall no_choice (map read args)).
    { clear Hf. induction args as [|y l IHl]; constructor; inversion Ha; subst; [apply IH; assumption|apply IHl; assumption]. }
    pose proof (IH x Hf) as Hf'. destruct named; [|destruct x; exact Logic.I].
    assert (S : no_choice (match args with [] => UShow (read x) file pos | _ => UValue (NApply x args [] file pos) end)) by (destruct args; [exact Hf'|exact Logic.I]).
    destruct x; try exact S.
    + cbn [read]. destruct args; [exact S|]. cbn [no_choice]. apply no_choice_all, A.
    + destruct r as [|[|]]; try exact S. cbn [read]. destruct (mem (s_txt a) fns); [cbn [no_choice]; apply no_choice_all, A|]. destruct (mem (s_txt a) known); [exact S|]. cbn [no_choice]; apply no_choice_all, A.
  - intros [].
Qed.
Lemma read_simple : forall x, choices_apart (bare x) -> simple_choices (read x).
Proof.
  fix IH 1. intros x. destruct x; try (intros _; exact Logic.I).
  - cbn [bare choices_apart read simple_choices]. rewrite apart_all, simple_all. induction l as [|y l IHl]; intros H; constructor; inversion H; subst; [apply IH; assumption|apply IHl; assumption].
  - cbn [bare choices_apart read simple_choices]. rewrite apart_all, simple_all. induction l as [|y l IHl]; intros H; constructor; inversion H; subst; [apply IH; assumption|apply IHl; assumption].
  - cbn [bare choices_apart]. rewrite apart_all. intros [Hf Ha]. assert (A : Forall simple_choices (map read args)).
    { clear Hf. induction args as [|y l IHl]; constructor; inversion Ha; subst; [apply IH; assumption|apply IHl; assumption]. }
    pose proof (IH x Hf) as Hf'. destruct named; [|destruct x; exact Logic.I].
    assert (S : simple_choices (match args with [] => UShow (read x) file pos | _ => UValue (NApply x args [] file pos) end)) by (destruct args; [exact Hf'|exact Logic.I]).
    destruct x; try exact S.
    + cbn [read]. destruct args; [exact S|]. cbn [simple_choices]. apply simple_all, A.
    + destruct r as [|[|]]; try exact S. cbn [read]. destruct (mem (s_txt a) fns); [cbn [simple_choices]; apply simple_all, A|]. destruct (mem (s_txt a) known); [exact S|]. cbn [simple_choices]; apply simple_all, A.
  - cbn [bare choices_apart read simple_choices]. intros (H1 & H2 & H3). split; [apply IH, H1|]. split; apply read_no_choice; assumption.
Qed.
End Read.
