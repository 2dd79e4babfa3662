(** Lists, mapping, subscripts, emit, skip, comments, passages (proofs only). *)
From Coq Require Import List NArith ZArith Bool Lia ZifyBool ZifyNat ZifyN.
From Verif Require Import PyStr Ast Lex Parse Final Eval PyStrFacts EnvSpec EnvFacts EvalSpec EvalMono EvalKeep EvalPure EvalFacts.
Import ListNotations.

Section Facts.
Variables (ec : ectx) (parse : text -> M (list node)).
Notation ev := (yueval ec parse).
Notation fin := (finishes ec parse).
Notation evs := (evals ec parse).

(** ** Lists *)
Definition contribution (v : node) : list node :=
  match v with
  | NNone => []
  | NEmbed (NList m) | NEmbed (NT m _) => m
  | NEmbed (NVar _ _) | NEmbed (NApply _ _ _ _ _) => [v]
  | NEmbed w => [w]
  | _ => [v]
  end.
Lemma contributes_spec v c : contributes v c <-> c = contribution v.
Proof.
  split.
  - intros H. destruct H as [|l|l i|r a|f a n x p|v Hl Hv|v Hv]; try reflexivity.
    + destruct v; try reflexivity; try discriminate Hl; contradiction Hv.
    + destruct v; try reflexivity; contradiction Hv.
  - intros ->. destruct v; try (apply C_value; exact I); [apply C_nothing|].
    destruct v; try (apply C_splice_other; [reflexivity|exact I]);
      [apply C_splice_list|apply C_splice_text|apply C_open_var|apply C_open_apply].
Qed.
Lemma list_loop_cons self acc x r e s :
  list_loop self acc (x :: r) e s =
  ebind (self x) (fun v =>
  ebind (lift_m (modify (noted v))) (fun _ => list_loop self (acc ++ contribution v) r)) e s.
Proof.
  cbn [list_loop]. unfold ebind at 1. unfold ebind at 2. destruct (self x e s) as [[[v e1] s1]| |]; try reflexivity.
  unfold ebind, lift_m, modify. destruct v; cbn [contribution noted]; rewrite ?app_nil_r; try reflexivity.
  destruct v; try reflexivity.
Qed.
Lemma rises_list l : forall acc, rises (fun n => list_loop (ev n) acc l).
Proof. intros acc i j H. apply list_loop_mono. intros x. apply rises_ev, H. Qed.
Lemma list_loop_spec l : forall acc e s w e' s',
  gives_r (fun n => list_loop (ev n) acc l) e s (Ok (w, e', s')) <->
  exists w', w = acc ++ w' /\ list_evals ec parse l e s w' e' s'.
Proof.
  induction l as [|x l IH]; intros acc e s w e' s'.
  - cbn [list_loop]. rewrite gives_ret. split.
    + intros [= -> -> ->]. exists []. rewrite app_nil_r. split; [reflexivity|constructor].
    + intros (w' & -> & H). inversion H; subst. rewrite app_nil_r. reflexivity.
  - rewrite (gives_ext (fun n => list_loop (ev n) acc (x :: l))
      (fun n => ebind (ev n x) (fun v => ebind (lift_m (modify (noted v))) (fun _ => list_loop (ev n) (acc ++ contribution v) l)))
      e s _ (fun n => list_loop_cons (ev n) acc x l e s)).
    split.
    + intros H. apply gives_bind_inv in H as (v & e1 & s1 & H1 & H2).
      assert (H3 : gives_r (fun n => list_loop (ev n) (acc ++ contribution v) l) e1 (noted v s1) (Ok (w, e', s'))) by exact H2.
      apply IH in H3 as (w' & -> & H3). exists (contribution v ++ w'). rewrite app_assoc. split; [reflexivity|].
      econstructor; [apply evals_fin; exact H1|apply contributes_spec; reflexivity|exact H3].
    + intros (w' & -> & H). inversion H as [|? ? ? ? v e1 s1 c w ? ? H1 H2 H3]; subst.
      apply contributes_spec in H2. subst c.
      apply (gives_bind (fun n => ev n x) (fun n v =>
        ebind (lift_m (modify (noted v))) (fun _ => list_loop (ev n) (acc ++ contribution v) l)) e s v e1 s1).
      * apply rises_ev.
      * intros a. apply (rises_bind (fun _ => lift_m (modify (noted a)))); [apply rises_const|]. intros _. apply rises_list.
      * apply evals_fin. exact H1.
      * change (gives_r (fun n => list_loop (ev n) (acc ++ contribution v) l) e1 (noted v s1) (Ok (acc ++ contribution v ++ w, e', s'))).
        apply IH. exists w. rewrite app_assoc. auto.
Qed.
Lemma list_spec l e s v e' s' :
  evs (NList l) e s v e' s' <-> exists w, v = NList w /\ list_evals ec parse l e s w e' s'.
Proof.
  rewrite evals_fin, fin_body. cbn [eval_body]. split.
  - intros H. apply (gives_bind_inv (fun n => list_loop (ev n) [] l) (fun _ w => eret (NList w))) in H as (w & e1 & s1 & H1 & H2).
    apply gives_ret in H2. injection H2 as -> -> ->. apply list_loop_spec in H1 as (w' & -> & H1). eauto.
  - intros (w & -> & H).
    apply (gives_bind (fun n => list_loop (ev n) [] l) (fun _ w => eret (NList w)) e s w e' s').
    + apply rises_list.
    + intros a. apply rises_const.
    + apply list_loop_spec. exists w. auto.
    + apply gives_ret. reflexivity.
Qed.

(** ** Application: the common start *)
Lemma rises_eval_list l : rises (fun n => eval_list (ev n) l).
Proof. intros i j H. apply eval_list_mono. intros x. apply rises_ev, H. Qed.
Lemma eval_list_gives l e s w e' s' :
  gives_r (fun n => eval_list (ev n) l) e s (Ok (w, e', s')) <-> evs (NList l) e s (NList w) e' s'.
Proof.
  unfold eval_list. rewrite evals_fin. split.
  - intros H. apply (gives_bind_inv (fun n => ev n (NList l)) (fun _ v => match list_of v with Some l => eret l | None => _ end)) in H
      as (v & e1 & s1 & H1 & H2).
    pose proof H1 as H1'. apply evals_fin, list_spec in H1' as (w' & -> & _).
    cbn [list_of] in H2. apply gives_ret in H2. injection H2 as -> -> ->. exact H1.
  - intros H.
    apply (gives_bind (fun n => ev n (NList l)) (fun _ v => match list_of v with Some l => eret l | None => _ end) e s (NList w) e' s').
    + apply rises_ev.
    + intros a. apply rises_const.
    + exact H.
    + cbn [list_of]. apply gives_ret. reflexivity.
Qed.
Definition apply_rest (n : nat) (call : option source) (named : list (source * node)) (file : option text) (pos : Z)
  (fn : node) (args : list node) : E node :=
  match as_closure call fn with
  | Some c => apply_closure (ev n) c args named file pos
  | None =>
      match fn with
      | NBuiltin a => named_unexpected named (apply_builtin ec a args file pos)
      | NSpecial a => named_unexpected named (apply_special ec a args file pos)
      | NInt z => named_unexpected named (apply_number fn z args file pos)
      | NBool b => named_unexpected named (apply_number fn (if b then 1 else 0)%Z args file pos)
      | NFloat t => named_unexpected named (apply_number fn (e_float_int ec t) args file pos)
      | NText _ _ _ | NT _ _ =>
          match args, named with
          | [], [] => ev n fn
          | _, _ => ethrow TypeError "yueval: no arguments of text expected"%string
          end
      | NLazy a => ev n (NApply a args named file pos)
      | NAtom a =>
          match args, named with
          | [], [] => ebind (ewarn "application of unbound atom"%string) (fun _ => eret fn)
          | _, _ => ethrow TypeError "yueval: no arguments of unbound atom expected"%string
          end
      | NList l => named_unexpected named (ebind (foreach (ev n) args l) (fun r => eret (NList r)))
      | NSkip => eret NSkip
      | NNone => eret NNone
      | _ =>
          match str_of fn with
          | Some s => apply_str ec (ev n) fn s args named file pos
          | None => eret (NApply fn args named file pos)
          end
      end
  end.
Definition call_of (fn : node) : option source := match fn with NVar _ a => Some a | _ => None end.
Lemma rises_rest call named file pos fn args : rises (fun n => apply_rest n call named file pos fn args).
Proof.
  intros i j H. pose proof (fun x => rises_ev ec parse x i j H) as Hs. unfold apply_rest.
  destruct (as_closure call fn); [apply apply_closure_mono; exact Hs|].
  destruct fn; cbn [str_of]; try apply le_refl; try apply Hs;
    unfold apply_str, named_unexpected;
    repeat match goal with |- le_E (match ?x with _ => _ end) _ => destruct x end; try apply le_refl; try apply Hs;
    apply le_bind; try (intros ?; apply le_refl); try (apply eval_named_mono; exact Hs); apply foreach_mono; exact Hs.
Qed.
Lemma apply_fin fn args named file pos e s f e1 s1 vs e2 s2 r :
  evs fn e s f e1 s1 -> evs (NList args) e1 s1 (NList vs) e2 s2 ->
  fin (NApply fn args named file pos) e s r <->
  gives_r (fun n => apply_rest n (call_of fn) named file pos f vs) e2 s2 r.
Proof.
  intros Hf Ha. rewrite fin_body. cbn [eval_body]. unfold eval_apply.
  rewrite (gives_bind (fun n => ev n fn) (fun n f => ebind (eval_list (ev n) args) (fun a => apply_rest n (call_of fn) named file pos f a)) e s f e1 s1).
  - apply (gives_bind (fun n => eval_list (ev n) args) (fun n a => apply_rest n (call_of fn) named file pos f a)).
    + apply rises_eval_list.
    + intros a. apply rises_rest.
    + apply eval_list_gives, Ha.
  - apply rises_ev.
  - intros a. apply (rises_bind (fun n => eval_list (ev n) args)); [apply rises_eval_list|]. intros b. apply rises_rest.
  - apply evals_fin, Hf.
Qed.

(** ** Mapping *)
Lemma rises_chain fs x : rises (fun n => chain (ev n) fs x).
Proof. intros i j H. apply chain_mono. intros y. apply rises_ev, H. Qed.
Lemma rises_foreach fs l : rises (fun n => foreach (ev n) fs l).
Proof. intros i j H. apply foreach_mono. intros y. apply rises_ev, H. Qed.
Lemma chain_spec fs : forall x e s y e' s',
  gives_r (fun n => chain (ev n) fs x) e s (Ok (y, e', s')) <-> pipes ec parse fs x e s y e' s'.
Proof.
  induction fs as [|f fs IH]; intros x e s y e' s'; cbn [chain].
  - rewrite gives_ret. split; [intros [= -> -> ->]; constructor|intros H; inversion H; reflexivity].
  - split.
    + intros H. apply (gives_bind_inv (fun n => ev n (NApply f [x] [] None 0)) (fun n y => chain (ev n) fs y)) in H as (z & e1 & s1 & H1 & H2).
      apply IH in H2. econstructor; [apply evals_fin; exact H1|exact H2].
    + intros H. inversion H as [|? ? ? ? ? z e1 s1 ? ? ? H1 H2]; subst.
      apply (gives_bind (fun n => ev n (NApply f [x] [] None 0)) (fun n y => chain (ev n) fs y) e s z e1 s1).
      * apply rises_ev.
      * intros a. apply rises_chain.
      * apply evals_fin, H1.
      * apply IH, H2.
Qed.
Lemma foreach_spec fs l : forall e s w e' s',
  gives_r (fun n => foreach (ev n) fs l) e s (Ok (w, e', s')) <-> maps ec parse fs l e s w e' s'.
Proof.
  induction l as [|x l IH]; intros e s w e' s'; cbn [foreach].
  - rewrite gives_ret. split; [intros [= -> -> ->]; constructor|intros H; inversion H; reflexivity].
  - set (k2 := fun (y : node) (_ : nat) (l : list node) => eret (match y with NNone => l | _ => y :: l end)).
    change (gives_r (fun n => ebind (chain (ev n) fs x) ((fun n y => ebind (foreach (ev n) fs l) (k2 y n)) n)) e s (Ok (w, e', s'))
            <-> maps ec parse fs (x :: l) e s w e' s').
    split.
    + intros H. apply gives_bind_inv in H as (y & e1 & s1 & H1 & H2). apply gives_bind_inv in H2 as (r & e2 & s2 & H2 & H3).
      unfold k2 in H3. apply gives_ret in H3. injection H3 as -> -> ->. apply chain_spec in H1. apply IH in H2.
      destruct y; try (eapply MA_keep; [exact H1|discriminate|exact H2]). eapply MA_drop; eassumption.
    + intros H.
      assert (Hex : exists y e1 s1 r, pipes ec parse fs x e s y e1 s1 /\ maps ec parse fs l e1 s1 r e' s' /\
                w = match y with NNone => r | _ => y :: r end).
      { inversion H as [|? ? ? ? e1 s1 ? ? ? H1 H2|? ? ? ? y e1 s1 r ? ? H1 Hn H2]; subst.
        - exists NNone, e1, s1, w. auto.
        - exists y, e1, s1, r. split; [exact H1|]. split; [exact H2|]. destruct y; try reflexivity. congruence. }
      destruct Hex as (y & e1 & s1 & r & H1 & H2 & ->).
      apply (gives_bind (fun n => chain (ev n) fs x) (fun n y => ebind (foreach (ev n) fs l) (k2 y n)) e s y e1 s1).
      * apply rises_chain.
      * intros a. apply (rises_bind (fun n => foreach (ev n) fs l)); [apply rises_foreach|]. intros b. unfold k2. apply rises_const.
      * apply chain_spec, H1.
      * apply (gives_bind (fun n => foreach (ev n) fs l) (k2 y) e1 s1 r e' s').
        { apply rises_foreach. } { intros b. unfold k2. apply rises_const. } { apply IH, H2. }
        unfold k2. apply gives_ret. reflexivity.
Qed.
Lemma map_spec fn args file pos e s l e1 s1 fs e2 s2 v e' s' :
  evs fn e s (NList l) e1 s1 -> evs (NList args) e1 s1 (NList fs) e2 s2 ->
  evs (NApply fn args [] file pos) e s v e' s' <->
  exists w, v = NList w /\ maps ec parse fs l e2 s2 w e' s'.
Proof.
  intros Hf Ha. rewrite evals_fin, (apply_fin fn args [] file pos e s _ e1 s1 _ e2 s2 _ Hf Ha).
  unfold apply_rest. cbn [as_closure named_unexpected]. split.
  - intros H. apply (gives_bind_inv (fun n => foreach (ev n) fs l) (fun _ r => eret (NList r))) in H as (w & e3 & s3 & H1 & H2).
    apply gives_ret in H2. injection H2 as -> -> ->. apply foreach_spec in H1. eauto.
  - intros (w & -> & H). apply (gives_bind (fun n => foreach (ev n) fs l) (fun _ r => eret (NList r)) e2 s2 w e' s').
    { apply rises_foreach. } { intros b. apply rises_const. } { apply foreach_spec, H. } apply gives_ret. reflexivity.
Qed.
End Facts.
