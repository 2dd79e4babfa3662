(** How the functions on values commute with [flat] (proofs only). *)
From Coq Require Import List NArith ZArith Bool String.
From Verif Require Import PyStr Ast Lex Parse Final Eval Builtin FlatSpec.
Import ListNotations.
Open Scope list_scope.

Section Ind.
Variable P : node -> Prop.
Definition PL (l : list node) := Forall P l.
Definition PE (l : list (text * node)) := Forall (fun p => P (snd p)) l.
Definition PN (l : list (source * node)) := Forall (fun p => P (snd p)) l.
Definition PB (l : list (list source * source * node)) := Forall (fun p => P (snd p)) l.
Hypothesis H0 : forall x, match x with
  | NList _ | NT _ _ | NText _ _ _ | NApply _ _ _ _ _ | NEval _ _ _ | NInfix _ _ _ | NEmbed _ | NSet _ _ | NLet _ _ _
  | NEmit _ _ _ | NLambda _ _ | NLambdaV _ _ _ | NCond _ _ _ | NLClosure _ _ _ _ | NMClosure _ _ _ _ | NInfixClosure _ _ _ _
  | NCondClosure _ _ _ | NSetClosure _ _ | NTrim _ _ | NEnv _ | NLazy _ => True
  | _ => P x end.
Hypothesis HList : forall l, PL l -> P (NList l).
Hypothesis HT : forall l i, PL l -> P (NT l i).
Hypothesis HText : forall l a b, PL l -> P (NText l a b).
Hypothesis HApply : forall f args named file pos, P f -> PL args -> PN named -> P (NApply f args named file pos).
Hypothesis HEval : forall a d c, P a -> P (NEval a d c).
Hypothesis HInfix : forall a d c, P a -> P (NInfix a d c).
Hypothesis HEmbed : forall a, P a -> P (NEmbed a).
Hypothesis HSet : forall l a, P a -> P (NSet l a).
Hypothesis HLet : forall l a f, P a -> P f -> P (NLet l a f).
Hypothesis HEmit : forall r a e, P e -> P (NEmit r a e).
Hypothesis HLambda : forall b f, PB b -> P f -> P (NLambda b f).
Hypothesis HLambdaV : forall r a f, P f -> P (NLambdaV r a f).
Hypothesis HCond : forall c a e, P c -> P a -> P e -> P (NCond c a e).
Hypothesis HLClosure : forall f env late d, P f -> PE env -> PE d -> P (NLClosure f env late d).
Hypothesis HMClosure : forall f env d c, PE env -> P (NMClosure f env d c).
Hypothesis HInfixClosure : forall e env f p, PE env -> P (NInfixClosure e env f p).
Hypothesis HCondClosure : forall c a e, P c -> P a -> P e -> P (NCondClosure c a e).
Hypothesis HSetClosure : forall f env, P f -> PE env -> P (NSetClosure f env).
Hypothesis HTrim : forall a i, P a -> P (NTrim a i).
Hypothesis HEnv : forall env, PE env -> P (NEnv env).
Hypothesis HLazy : forall a, P a -> P (NLazy a).
Fixpoint node_all (x : node) : P x.
Proof.
  assert (L : forall l, PL l) by (induction l; constructor; auto).
  assert (LE : forall l, PE l) by (induction l; constructor; auto).
  assert (LN : forall l, PN l) by (induction l; constructor; auto).
  assert (LB : forall l, PB l) by (induction l; constructor; auto).
  destruct x as [|s|s|s|s i tr|s|t|t b o|z|b|t|l|l i|l sq p|r a|fn args named file pos|ast d c|ast file pos|ast
    |lv ast|lv ast form|name pars body|r a ast|b f|r a f|c l1 l0| | | | |f env late dflt|f env d c|e env file pos
    |c l1 l0|f env|a|a|ast ind|env|ast| |t].
  all: try exact (H0 (NNone)).
  1: exact (H0 (NAtom s)).
  1: exact (H0 (NRemark s)).
  1: exact (H0 (NStr s)).
  1: exact (H0 (NPlain s i tr)).
  1: exact (H0 (NSource s)).
  1: exact (H0 (NRaw t)).
  1: exact (H0 (NResult t b o)).
  1: exact (H0 (NInt z)).
  1: exact (H0 (NBool b)).
  1: exact (H0 (NFloat t)).
  all: try (match goal with |- P ?x => exact (H0 x) end).
  - apply HList, L.
  - apply HT, L.
  - apply HText, L.
  - apply HApply; [apply node_all|apply L|apply LN].
  - apply HEval, node_all.
  - apply HInfix, node_all.
  - apply HEmbed, node_all.
  - apply HSet, node_all.
  - apply HLet; apply node_all.
  - apply HEmit, node_all.
  - apply HLambda; [apply LB|apply node_all].
  - apply HLambdaV, node_all.
  - apply HCond; apply node_all.
  - apply HLClosure; [apply node_all|apply LE|apply LE].
  - apply HMClosure, LE.
  - apply HInfixClosure, LE.
  - apply HCondClosure; apply node_all.
  - apply HSetClosure; [apply node_all|apply LE].
  - apply HTrim, node_all.
  - apply HEnv, LE.
  - apply HLazy, node_all.
Defined.
End Ind.

Lemma map_ext_F {A B} (f g : A -> B) l : Forall (fun x => f x = g x) l -> map f l = map g l.
Proof. induction 1; cbn [map]; congruence. Qed.
Lemma map_snd {A} (f g : node -> node) (l : list (A * node)) : Forall (fun p => f (snd p) = g (snd p)) l ->
  map (fun p => (fst p, f (snd p))) l = map (fun p => (fst p, g (snd p))) l.
Proof. intros H. apply map_ext_F. eapply Forall_impl; [|exact H]. intros p E. cbn beta. rewrite E. reflexivity. Qed.
Lemma flat_flat x : flat (flat x) = flat x.
Proof.
  revert x; apply node_all; intros; unfold PL, PE, PN, PB in *; cbn [flat];
    rewrite ?map_map; cbn [fst snd];
    repeat match goal with
      | H : Forall (fun p => flat (flat (snd p)) = flat (snd p)) _ |- _ => apply (map_snd (fun x => flat (flat x)) flat) in H; rewrite H; clear H
      | H : Forall (fun x => flat (flat x) = flat x) _ |- _ => apply map_ext_F in H; rewrite H; clear H
      | H : flat (flat _) = flat _ |- _ => rewrite H; clear H
      end; try reflexivity.
  destruct x; try exact Logic.I; reflexivity.
Qed.
Lemma same_flat x : same x (flat x).
Proof. symmetry. apply flat_flat. Qed.
Lemma flat_frame_flat f : flat_frame (flat_frame f) = flat_frame f.
Proof.
  unfold flat_frame. rewrite map_map. apply map_ext. intros [k v]. cbn [fst snd]. rewrite flat_flat. reflexivity.
Qed.
Lemma flat_st_flat s : flat_st (flat_st s) = flat_st s.
Proof.
  unfold flat_st, set_unique, set_files. cbn. rewrite map_map. f_equal. apply map_ext. apply flat_flat.
Qed.

Lemma str_flat x : str_of (flat x) = str_of x.
Proof. destruct x; reflexivity. Qed.
Lemma list_flat x : list_of (flat x) = option_map (map flat) (list_of x).
Proof. destruct x; reflexivity. Qed.
Lemma int_flat x : int_of (flat x) = int_of x.
Proof. destruct x; reflexivity. Qed.
Lemma comment_flat x : is_comment (flat x) = is_comment x.
Proof. destruct x; reflexivity. Qed.
Lemma plain_flat x : is_plain (flat x) = is_plain x.
Proof. destruct x; reflexivity. Qed.
Lemma set_trim_flat x : set_trim (flat x) = flat (set_trim x).
Proof. destruct x; reflexivity. Qed.
Lemma add_indent_flat i x : add_indent i (flat x) = flat (add_indent i x).
Proof. destruct x as [| | | |s [| |] tr| | | | | | | | | | | | | | | | | | | | | | | | | | | | | | | | | | | | |]; reflexivity. Qed.
Lemma forallb_map_F {A} (f : A -> bool) (g : A -> A) l : Forall (fun x => f (g x) = f x) l -> forallb f (map g l) = forallb f l.
Proof. induction 1; cbn [map forallb]; congruence. Qed.
Lemma existsb_map_F {A} (f : A -> bool) (g : A -> A) l : Forall (fun x => f (g x) = f x) l -> existsb f (map g l) = existsb f l.
Proof. induction 1; cbn [map existsb]; congruence. Qed.
Lemma term_flat x : is_term (flat x) = is_term x.
Proof.
  revert x; apply node_all; intros; unfold PL in *; cbn [flat is_term]; try reflexivity; try assumption;
    try (apply forallb_map_F; assumption).
  destruct x; try exact Logic.I; reflexivity.
Qed.
Lemma terms_flat l : is_term (NList (map flat l)) = is_term (NList l).
Proof. exact (term_flat (NList l)). Qed.
Lemma deadlock_flat x : detect_deadlock (flat x) = detect_deadlock x.
Proof.
  revert x; apply node_all; intros; unfold PL in *; cbn [flat detect_deadlock]; try reflexivity; try assumption;
    try (apply existsb_map_F; assumption).
  destruct x; try exact Logic.I; reflexivity.
Qed.
Lemma deadlocks_flat l : detect_deadlock (NList (map flat l)) = detect_deadlock (NList l).
Proof. exact (deadlock_flat (NList l)). Qed.
Lemma truthy_flat x : truthy (flat x) = truthy x.
Proof. destruct x; cbn [flat truthy str_of list_of]; try reflexivity; try (destruct l; reflexivity); destruct env; reflexivity. Qed.

(** dictionaries *)
Definition flat_d {A} (d : list (A * node)) : list (A * node) := map (fun p => (fst p, flat (snd p))) d.
Lemma dict_get_flat k f : dict_get k (flat_frame f) = option_map flat (dict_get k f).
Proof. induction f as [|[k' v] f IH]; cbn [flat_frame map dict_get fst snd]; [reflexivity|]. destruct (teqb k k'); [reflexivity|exact IH]. Qed.
Lemma dict_mem_flat k f : dict_mem k (flat_frame f) = dict_mem k f.
Proof. unfold dict_mem. rewrite dict_get_flat. destruct (dict_get k f); reflexivity. Qed.
Lemma dict_set_flat k v f : dict_set k (flat v) (flat_frame f) = flat_frame (dict_set k v f).
Proof.
  induction f as [|[k' v'] f IH]; cbn [flat_frame map dict_set fst snd]; [reflexivity|].
  destruct (teqb k k'); cbn [map fst snd]; [reflexivity|]. f_equal. exact IH.
Qed.
Lemma frame_del_flat k f : frame_del k (flat_frame f) = flat_frame (frame_del k f).
Proof.
  unfold frame_del. induction f as [|[k' v'] f IH]; cbn [flat_frame map filter fst snd]; [reflexivity|].
  destruct (negb (teqb k k')); cbn [map fst snd]; [f_equal|]; exact IH.
Qed.
Lemma frame_set_flat k v f : frame_set k (flat v) (flat_frame f) = flat_frame (frame_set k v f).
Proof. unfold frame_set, flat_frame. rewrite map_app. fold (flat_frame f). rewrite frame_del_flat. reflexivity. Qed.
Lemma lookup_flat e k : lookup (map flat_frame e) k = option_map flat (lookup e k).
Proof. induction e as [|f e IH]; cbn [map lookup]; [reflexivity|]. rewrite dict_get_flat. destruct (dict_get k f); [reflexivity|exact IH]. Qed.
Lemma update_flat k v e : update_variable k (flat v) (map flat_frame e) = map flat_frame (update_variable k v e).
Proof.
  induction e as [|f e IH]; cbn [map update_variable]; [reflexivity|]. rewrite dict_mem_flat.
  destruct (dict_mem k f); cbn [map]; [rewrite dict_set_flat; reflexivity|rewrite IH; reflexivity].
Qed.
Lemma unassigned_flat f : unassigned (flat_frame f) = unassigned f.
Proof. induction f as [|[k v] f IH]; cbn [flat_frame map unassigned fst snd]; [reflexivity|]. destruct v; try exact IH; reflexivity. Qed.
Lemma bound_flat {A} (key : A -> text) l : forall f,
  fold_left (fun f v => frame_set (key v) NBound f) l (flat_frame f) =
  flat_frame (fold_left (fun f v => frame_set (key v) NBound f) l f).
Proof.
  induction l as [|v l IH]; intros f; cbn [fold_left]; [reflexivity|].
  pose proof (frame_set_flat (key v) NBound f) as E. cbn [flat] in E. rewrite E. apply IH.
Qed.
Lemma infix_frame_flat e names : infix_frame (map flat_frame e) names = flat_frame (infix_frame e names).
Proof.
  unfold infix_frame. change (@nil (text * node)) with (flat_frame []) at 1. generalize (@nil (text * node)) as f.
  induction names as [|n names IH]; intros f; cbn [fold_left]; [reflexivity|]. rewrite lookup_flat.
  destruct (lookup e n) as [v|]; cbn [option_map]; [|apply IH].
  pose proof (frame_set_flat n (NVar (RList []) (raw n)) f) as E. cbn [flat] in E. rewrite E. apply IH.
Qed.
Lemma assign_all_flat (v : node) (l : list source) : forall f,
  fold_left (fun f x => frame_set (s_txt x) (flat v) f) l (flat_frame f) =
  flat_frame (fold_left (fun f x => frame_set (s_txt x) v f) l f).
Proof. induction l as [|x l IH]; intros f; cbn [fold_left]; [reflexivity|]. rewrite frame_set_flat. apply IH. Qed.
Lemma iter_flat x : py_iter (flat x) = option_map (map flat) (py_iter x).
Proof.
  unfold py_iter. rewrite list_flat, str_flat. destruct (list_of x); cbn [option_map]; [reflexivity|].
  destruct (str_of x); cbn [option_map]; [|reflexivity]. rewrite map_map. reflexivity.
Qed.
Lemma builtin_result_flat v : builtin_result (flat v) = flat (builtin_result v).
Proof. destruct v; reflexivity. Qed.
Lemma const_result_flat v : const_result (flat v) = flat (const_result v).
Proof. destruct v; reflexivity. Qed.
Lemma list_to_bound_flat l : list_to_bound (map flat l) = list_to_bound l.
Proof. induction l as [|x l IH]; cbn [map list_to_bound]; [reflexivity|]. destruct x; cbn [flat]; try reflexivity. rewrite IH. reflexivity. Qed.
Lemma nth_flat l i : nth_error (map flat l) i = option_map flat (nth_error l i).
Proof. apply nth_error_map. Qed.

Section Plain.
Variable ec : ectx.
Hypothesis Hrepr : forall x, e_repr ec (flat x) = e_repr ec x.
Lemma py_str_flat x : py_str ec (flat x) = py_str ec x.
Proof.
  destruct x; try reflexivity;
    match goal with |- py_str _ (flat ?x) = _ => exact (Hrepr x) end.
Qed.
Lemma plain_text_flat x : plain ec (flat x) = plain ec x.
Proof.
  revert x; apply node_all; intros; unfold PL in *; cbn [flat plain]; try reflexivity; try (f_equal; assumption);
    try (rewrite map_map; f_equal; apply map_ext_F; assumption);
    try (match goal with |- py_str _ ?x = py_str _ ?y => change x with (flat y); apply py_str_flat end); try assumption.
  destruct x; try exact Logic.I; reflexivity.
Qed.
Lemma plain_back_flat x : plain_back ec (flat x) = plain_back ec x.
Proof.
  unfold plain_back. rewrite list_flat, py_str_flat. destruct (list_of x) as [[|y l]|]; reflexivity.
Qed.
Lemma expand_flat f : forall s, expand ec (flat_frame f) s = expand ec f s.
Proof.
  induction f as [|[k v] f IH]; intros s; cbn [flat_frame map expand fst snd]; [reflexivity|].
  rewrite plain_back_flat. apply IH.
Qed.
Lemma format_args_flat l : forall i s, format_args ec i (map flat l) s = format_args ec i l s.
Proof. induction l as [|x l IH]; intros i s; cbn [map format_args]; [reflexivity|]. rewrite plain_text_flat. apply IH. Qed.
Lemma format_named_flat l : forall s, format_named ec (flat_d l) s = format_named ec l s.
Proof.
  induction l as [|[k v] l IH]; intros s; cbn [flat_d map format_named fst snd]; [reflexivity|].
  rewrite plain_text_flat. apply IH.
Qed.
End Plain.
