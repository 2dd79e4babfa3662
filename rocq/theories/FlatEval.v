(** Evaluation commutes with taking the browse tables off (proofs only). *)
From Coq Require Import List NArith ZArith Bool String.
From Verif Require Import PyStr Ast Lex Parse Final Eval Builtin EvalMono FlatSpec FlatParse FlatFacts.
Import ListNotations.
Open Scope list_scope.

(** two stateful computations *)
Definition msim {A B} (f : A -> B) (m1 : M A) (m2 : M B) : Prop :=
  forall s, m2 (flat_st s) = match m1 s with Ok (a, s') => Ok (f a, flat_st s') | Err e => Err e | Fuel => Fuel end.
Lemma msim_natural {A} (m : M A) : natural m -> msim (fun x => x) m m.
Proof. intros H s. rewrite H. destruct (m s) as [[a s']| |]; reflexivity. Qed.
Lemma msim_ret {A B} (f : A -> B) a b : b = f a -> msim f (ret a) (ret b).
Proof. intros -> s. reflexivity. Qed.
Lemma msim_throw {A B} (f : A -> B) e : msim f (throw e) (throw e).
Proof. intros s. reflexivity. Qed.
Lemma msim_bind {A B A' B'} (f : A -> B) (g : A' -> B') m1 m2 k1 k2 :
  msim f m1 m2 -> (forall a, msim g (k1 a) (k2 (f a))) -> msim g (bind m1 k1) (bind m2 k2).
Proof.
  intros Hm Hk s. unfold bind. rewrite (Hm s). destruct (m1 s) as [[a s']| |]; [apply Hk| |]; reflexivity.
Qed.
Lemma msim_get {A B} (f : A -> B) k1 k2 : (forall s, msim f (k1 s) (k2 (flat_st s))) -> msim f (bind get_st k1) (bind get_st k2).
Proof. intros H s. unfold bind, get_st. apply H. Qed.
Lemma msim_modify f1 f2 : (forall s, f2 (flat_st s) = flat_st (f1 s)) -> msim (fun x : unit => x) (modify f1) (modify f2).
Proof. intros H s. unfold modify. rewrite H. reflexivity. Qed.

(** the reference evaluator *)
Definition flat_run {A B} (f : A -> B) (r : res (A * yst)) : res (B * yst) :=
  match r with Ok (a, s) => Ok (f a, flat_st s) | Err e => Err e | Fuel => Fuel end.
Definition flat_entry (b : bval) : bval :=
  match b with BConst v => BConst (flat v) | BFun f => BFun (fun args s => flat_run flat (f args s)) end.
Definition flat_ec (ec : ectx) : ectx :=
  ECtx (e_parse ec) (e_trim ec) false (e_passage ec)
       (fun i n => option_map flat_entry (e_builtin ec i n)) (e_names ec)
       (fun t f => match e_infix ec t f with Ok v => Ok (flat v) | Err e => Err e | Fuel => Fuel end)
       (e_float_str ec) (e_float_int ec) (e_repr ec).
Definition flat_parse (parse : text -> M (list node)) (key : text) : M (list node) :=
  fun s => flat_run (map flat) (parse key s).

Section Sim.
Variables (ec : ectx) (parse : text -> M (list node)).
Hypothesis Hrepr : forall x, e_repr ec (flat x) = e_repr ec x.
Hypothesis Hinfix : forall t f, same_value (e_infix ec t f) (e_infix ec t (flat_frame f)).
Hypothesis Hbuiltin : forall i n, blind_entry (e_builtin ec i n).
Hypothesis Htrim : e_trim ec = false.
Hypothesis Hparse : forall key, natural (parse key).

Definition strict : Prop := e_browse ec = false.
Definition sim {A B} (f : A -> B) (m1 : E A) (m2 : E B) : Prop := forall e s,
  match m1 e s with
  | Ok (a, e', s') => m2 (map flat_frame e) (flat_st s) = Ok (f a, map flat_frame e', flat_st s')
  | Err x => strict -> m2 (map flat_frame e) (flat_st s) = Err x
  | Fuel => strict -> m2 (map flat_frame e) (flat_st s) = Fuel
  end.
Lemma s_ret {A B} (f : A -> B) a b : b = f a -> sim f (eret a) (eret b).
Proof. intros -> e s. reflexivity. Qed.
Lemma s_throw {A B} (f : A -> B) c m : sim f (ethrow c m) (ethrow c m).
Proof. intros e s _. reflexivity. Qed.
Lemma s_bind {A B A' B'} (f : A -> B) (g : A' -> B') m1 m2 k1 k2 :
  sim f m1 m2 -> (forall a, sim g (k1 a) (k2 (f a))) -> sim g (ebind m1 k1) (ebind m2 k2).
Proof.
  intros Hm Hk e s. unfold ebind. specialize (Hm e s). destruct (m1 e s) as [[[a e'] s']| |].
  - rewrite Hm. apply Hk.
  - intros Hs. rewrite (Hm Hs). reflexivity.
  - intros Hs. rewrite (Hm Hs). reflexivity.
Qed.
Lemma s_frame {A B} (f : A -> B) fr m1 m2 : sim f m1 m2 ->
  sim (fun p => (f (fst p), flat_frame (snd p))) (in_frame fr m1) (in_frame (flat_frame fr) m2).
Proof.
  intros H e s. unfold in_frame. specialize (H (fr :: e) s). cbn [map] in H.
  destruct (m1 (fr :: e) s) as [[[a [|f' e']] s']| |].
  - intros Hs. rewrite H. reflexivity.
  - rewrite H. reflexivity.
  - intros Hs. rewrite (H Hs). reflexivity.
  - intros Hs. rewrite (H Hs). reflexivity.
Qed.
Lemma s_lift {A B} (f : A -> B) m1 m2 : msim f m1 m2 -> sim f (lift_m m1) (lift_m m2).
Proof.
  intros H e s. unfold lift_m. rewrite (H s). destruct (m1 s) as [[a s']| |]; [reflexivity| |]; intros _; reflexivity.
Qed.
Lemma s_warn m : sim (fun x => x) (ewarn m) (ewarn m).
Proof. apply s_lift, msim_modify. reflexivity. Qed.
Lemma s_get : sim (map flat_frame) get_env get_env.
Proof. intros e s. reflexivity. Qed.
Lemma s_mod f1 f2 : (forall e, f2 (map flat_frame e) = map flat_frame (f1 e)) -> sim (fun x => x) (mod_env f1) (mod_env f2).
Proof. intros H e s. unfold mod_env. rewrite H. reflexivity. Qed.

(** functions written in Python *)
Lemma entry_sim f : blind f -> forall args, msim flat (f args) (fun s => flat_run flat (f (map flat args) s)).
Proof.
  intros H args s.
  assert (Ha : Forall2 same args (map flat args)).
  { induction args as [|a args IH]; cbn [map]; constructor; [apply same_flat|exact IH]. }
  assert (Hs : same_st s (flat_st s)) by (symmetry; apply flat_st_flat).
  specialize (H args (map flat args) s (flat_st s) Ha Hs).
  inversion H as [x s1 x' s1' Hx Hst E1 E2|e E1 E2|E1 E2]; cbn [flat_run]; [|reflexivity|reflexivity].
  rewrite Hx, Hst. reflexivity.
Qed.
Lemma s_find a : sim (option_map flat_entry) (find_builtin ec a) (find_builtin (flat_ec ec) a).
Proof. apply s_lift. apply msim_get. intros s. apply msim_ret. reflexivity. Qed.

(** the text of a block with and without tables *)
Definition quiet {A} (m : M A) : Prop := forall s a s', m s = Ok (a, s') -> flat_st s' = flat_st s.
Lemma q_ret {A} (a : A) : quiet (ret a).
Proof. intros s b s' E. inversion E. reflexivity. Qed.
Lemma q_throw {A} e : quiet (@throw A e).
Proof. intros s b s' E. discriminate E. Qed.
Lemma q_bind {A B} (m : M A) (k : A -> M B) : quiet m -> (forall a, quiet (k a)) -> quiet (bind m k).
Proof.
  intros Hm Hk s b s' E. unfold bind in E. destruct (m s) as [[a s1]| |] eqn:E1; try discriminate E.
  rewrite (Hk a s1 b s' E). exact (Hm s a s1 E1).
Qed.
Lemma q_get : quiet get_st.
Proof. intros s b s' E. inversion E. reflexivity. Qed.
Lemma q_file_index fn : quiet (file_index fn).
Proof.
  intros s i s' E. unfold file_index in E. match type of E with match ?x with _ => _ end = _ => destruct x end;
    inversion E; reflexivity.
Qed.
Lemma q_result_loc n : forall file pos, quiet (result_loc n file pos).
Proof.
  induction n as [|n IH]; intros file pos; cbn [result_loc]; [intros s b s' E; discriminate E|].
  apply q_bind; [apply q_get|]. intros st. destruct (dict_get file (y_source st)) as [[dc t]|]; [|apply q_throw].
  destruct (all_digits file).
  - apply q_bind.
    + destruct (nth_error _ _) as [[c|]|]; [|apply q_ret|apply q_throw]. destruct (s_file c); [apply IH|apply q_throw].
    + intros b1. apply q_bind; [|intros b2; apply q_ret]. destruct dc as [| |[? [f|] ?]]; try apply q_throw. apply IH.
  - apply q_bind; [apply q_file_index|]. intros i. apply q_ret.
Qed.
Lemma q_source_result a : quiet (source_result a).
Proof.
  unfold source_result. destruct (s_txt a); [apply q_ret|]. destruct (s_file a) as [[|c f]|]; try apply q_ret.
  apply q_bind; [apply q_get|]. intros st. apply q_bind; [apply q_result_loc|]. intros b. apply q_ret.
Qed.
Lemma source_result_txt a s r s' : source_result a s = Ok (r, s') -> r_txt r = s_txt a.
Proof.
  unfold source_result. destruct (s_txt a) as [|c0 t0] eqn:Ea; [intros E; inversion E; reflexivity|].
  destruct (s_file a) as [[|c f]|]; try (intros E; inversion E; reflexivity).
  unfold bind, get_st. destruct (result_loc _ _ _ _) as [[b s1]| |]; intros E; inversion E. reflexivity.
Qed.
Lemma add_text_txt a b : r_txt (add_text a b) = r_txt a ++ r_txt b.
Proof. unfold add_text. destruct (r_txt b) eqn:E; cbn [r_txt]; [rewrite app_nil_r|]; reflexivity. Qed.
Lemma fold_add_txt l : forall a, r_txt (fold_left add_text l a) = r_txt a ++ List.concat (map r_txt l).
Proof.
  induction l as [|b l IH]; intros a; cbn [fold_left map List.concat]; [rewrite app_nil_r; reflexivity|].
  rewrite IH, add_text_txt, app_assoc. reflexivity.
Qed.
Lemma concat_results_txt l : r_txt (concat_results l) = List.concat (map r_txt l).
Proof. destruct l as [|a l]; [reflexivity|]. apply fold_add_txt. Qed.
Definition pgo := fix go (l : list node) : M (list result) :=
               match l with
               | [] => ret []
               | y :: l' => bind (plain_with_browse ec y) (fun r =>
                            bind (go l') (fun rs => ret (r :: rs)))
               end.
Definition told (x : node) : Prop := forall s r s', plain_with_browse ec x s = Ok (r, s') ->
  r_txt r = plain ec x /\ flat_st s' = flat_st s.
Lemma told_list l : Forall told l -> forall s rs s', pgo l s = Ok (rs, s') ->
  List.concat (map r_txt rs) = List.concat (map (plain ec) l) /\ flat_st s' = flat_st s.
Proof.
  induction 1 as [|x l Hx Hl IH]; intros s rs s' E; cbn [pgo] in E.
  - inversion E. split; reflexivity.
  - unfold bind in E. destruct (plain_with_browse ec x s) as [[r s1]| |] eqn:E1; try discriminate E.
    fold pgo in E. destruct (pgo l s1) as [[rs' s2]| |] eqn:E2; inversion E; subst.
    destruct (Hx _ _ _ E1) as [H0 H1]. destruct (IH _ _ _ E2) as [H2 H3]. cbn [map List.concat]. rewrite H0, H2. split; [reflexivity|congruence].
Qed.
Lemma told_source x a : (forall s, plain_with_browse ec x s = source_result a s) -> s_txt a = plain ec x -> told x.
Proof.
  intros H Ht s r s' E. rewrite H in E. split; [rewrite <- Ht; apply (source_result_txt _ _ _ _ E)|apply (q_source_result _ _ _ _ E)].
Qed.
Lemma told_const x t : (forall s, plain_with_browse ec x s = ret (res_of t) s) -> t = plain ec x -> told x.
Proof. intros H -> s r s' E. rewrite H in E. inversion E. split; reflexivity. Qed.
Lemma told_all x : told x.
Proof.
  revert x; apply node_all; intros; unfold PL in *;
    try (eapply told_const; [intros s0; reflexivity|reflexivity]; fail).
  - destruct x; try exact Logic.I; try (eapply told_const; [intros s0; reflexivity|reflexivity]; fail);
      try (eapply told_source; [intros s0; reflexivity|reflexivity]; fail).
    + eapply told_source; [intros s0; reflexivity|]. cbn [plain]. unfold get_trimmed_with_browse, get_trimmed.
      rewrite Htrim. reflexivity.
    + intros s r s' E. inversion E. split; reflexivity.
  - intros s r s' E. cbn [plain_with_browse] in E. fold pgo in E. unfold bind in E. destruct (pgo l s) as [[rs s1]| |] eqn:E1; inversion E; subst.
    destruct (told_list l H _ _ _ E1) as [H1 H2]. rewrite concat_results_txt, H1. split; [reflexivity|exact H2].
  - intros s r s' E. cbn [plain_with_browse] in E. fold pgo in E. unfold bind in E. destruct (pgo l s) as [[rs s1]| |] eqn:E1; inversion E; subst.
    destruct (told_list l H _ _ _ E1) as [H1 H2]. rewrite concat_results_txt, H1. split; [reflexivity|exact H2].
  - intros s r s' E. cbn [plain_with_browse] in E. unfold bind in E. destruct (plain_with_browse ec a s) as [[r1 s1]| |] eqn:E1; inversion E; subst.
    destruct (H _ _ _ E1) as [H1 H2]. cbn [plain]. rewrite Htrim. unfold trim_with_browse, trim. rewrite <- H1.
    split; [|exact H2]. destruct (r_txt r1) eqn:E3; cbn [negb]; exact E3.
  - exact H.
Qed.

Section Body.
Variables (self1 self2 : node -> E node).
Hypothesis Hs : forall x, sim flat (self1 x) (self2 (flat x)).

Lemma s_self x y : y = flat x -> sim flat (self1 x) (self2 y).
Proof. intros ->. apply Hs. Qed.

Lemma s_t_loop items : forall mark ind skip t,
  sim (map flat) (t_loop self1 mark ind skip t items) (t_loop self2 mark ind skip (map flat t) (map flat items)).
Proof.
  induction items as [|x items IH]; intros mark ind skip t; [apply s_ret; reflexivity|].
  cbn [map]. destruct skip as [|k].
  2:{ rewrite !t_loop_skip. destruct x; apply IH. }
  destruct (is_comment x) eqn:Ec.
  - destruct x; try discriminate Ec. cbn [flat]. rewrite !t_loop_comment.
    replace (match map flat items with y :: _ => is_plain y | [] => false end)
      with (match items with y :: _ => is_plain y | [] => false end); [apply IH|].
    destruct items; cbn [map]; [reflexivity|]. symmetry. apply plain_flat.
  - rewrite !t_loop_item by (rewrite ?comment_flat; exact Ec).
    set (y := if mark then set_trim x else x).
    replace (if mark then set_trim (flat x) else flat x) with (flat y)
      by (unfold y; destruct mark; [symmetry; apply set_trim_flat|reflexivity]).
    replace (indent_after ind (flat y)) with (indent_after ind y)
      by (generalize y; intros z; destruct z; reflexivity).
    replace (is_apply (flat x)) with (is_apply x) by (destruct x; reflexivity).
    apply s_bind with (f := flat); [apply Hs|]. intros v.
    generalize (indent_after ind y) as xi. intros xi. generalize (is_apply x) as xa. intros xa. clear y Ec.
    assert (Push : forall w, sim (map flat)
        (t_loop self1 false xi 0 (t ++ [if xa then NTrim w (ind_text ind) else w]) items)
        (t_loop self2 false xi 0 (map flat t ++ [if xa then NTrim (flat w) (ind_text ind) else flat w]) (map flat items))).
    { intros w. specialize (IH false xi O (t ++ [if xa then NTrim w (ind_text ind) else w])).
      rewrite map_app in IH. cbn [map] in IH. destruct xa; exact IH. }
    destruct v; unfold t_after; cbn [flat]; try apply Push; try apply IH.
    + (* embedded *)
      destruct v; cbn [flat]; try apply Push.
      apply s_bind with (f := flat).
      * apply s_self. cbn [flat]. rewrite map_app. f_equal. f_equal. destruct ind as [|[|c ii]|]; try reflexivity.
        rewrite !map_map. apply map_ext. intros z. apply add_indent_flat.
      * intros w. apply s_ret. rewrite list_flat. destruct (list_of w); cbn [option_map]; rewrite map_app; reflexivity.
    + destruct items as [|z items]; cbn [map].
      * apply s_bind with (f := fun x => x); [apply s_warn|]. intros _. apply s_ret. reflexivity.
      * apply s_bind with (f := flat).
        -- apply s_self. cbn [flat]. f_equal. f_equal. cbn [mark_next]. rewrite plain_flat.
           destruct (is_ind_str ind && is_plain z); cbn [map]; [rewrite set_trim_flat|]; reflexivity.
        -- intros w. apply s_ret. rewrite map_app. reflexivity.
Qed.

Lemma s_eval_T l i : sim flat (eval_T ec self1 l i) (eval_T (flat_ec ec) self2 (map flat l) i).
Proof.
  unfold eval_T. apply s_bind with (f := map flat); [apply (s_t_loop l false i O [])|]. intros t.
  change (NT (map flat t) i) with (flat (NT t i)). rewrite term_flat.
  destruct (is_term (NT t i)); [|apply s_ret; reflexivity].
  cbn [flat_ec e_browse]. change (plain (flat_ec ec) (flat (NT t i))) with (plain ec (flat (NT t i))).
  rewrite (plain_text_flat ec Hrepr). unfold strict in *. destruct (e_browse ec) eqn:Eb; [|apply s_ret; reflexivity].
  intros e s. unfold ebind, lift_m, eret. destruct (plain_with_browse ec (NT t i) s) as [[r s']| |] eqn:E.
  - destruct (told_all _ _ _ _ E) as [Et Es]. rewrite Et, Es. reflexivity.
  - unfold strict. rewrite Eb. discriminate.
  - unfold strict. rewrite Eb. discriminate.
Qed.

Ltac step :=
  match goal with
  | |- sim _ (eret _) (eret _) => apply s_ret; reflexivity
  | |- sim _ (ethrow _ _) (ethrow _ _) => apply s_throw
  | |- sim flat (self1 _) (self2 _) => apply s_self; reflexivity
  | |- sim _ (ebind (self1 ?x) _) (ebind (self2 _) _) => apply (s_bind flat); [apply s_self; reflexivity|intros ?]
  | |- sim _ (ebind (ewarn _) _) _ => apply (s_bind (fun x => x)); [apply s_warn|intros ?]
  end.
Ltac go := repeat step.

Lemma s_hazard v : sim (fun x => x)
  (match v with NBuiltin a | NSpecial a => lift_m (modify (add_hazard a)) | _ => eret tt end)
  (match flat v with NBuiltin a | NSpecial a => lift_m (modify (add_hazard a)) | _ => eret tt end).
Proof. destruct v; cbn [flat]; go; apply s_lift, msim_modify; reflexivity. Qed.
Lemma s_list_loop l : forall acc, sim (map flat) (list_loop self1 acc l) (list_loop self2 (map flat acc) (map flat l)).
Proof.
  induction l as [|x l IH]; intros acc; cbn [list_loop map]; [go|].
  apply (s_bind flat); [go|]. intros v. apply (s_bind (fun x => x)); [apply s_hazard|]. intros _.
  assert (Push : forall w, sim (map flat) (list_loop self1 (acc ++ [w]) l) (list_loop self2 (map flat acc ++ [flat w]) (map flat l))).
  { intros w. specialize (IH (acc ++ [w])). rewrite map_app in IH. exact IH. }
  assert (Ext : forall m, sim (map flat) (list_loop self1 (acc ++ m) l) (list_loop self2 (map flat acc ++ map flat m) (map flat l))).
  { intros m. specialize (IH (acc ++ m)). rewrite map_app in IH. exact IH. }
  destruct v; cbn [flat]; try apply Push; try apply IH.
  destruct v; cbn [flat]; try apply Push; try apply Ext; apply Push.
Qed.
Lemma s_eval_list l : sim (map flat) (eval_list self1 l) (eval_list self2 (map flat l)).
Proof.
  unfold eval_list. apply (s_bind flat); [go|]. intros v. rewrite list_flat. destruct (list_of v); cbn [option_map]; go.
Qed.
Lemma s_list_eval_1 l : sim (fun p => (option_map flat (fst p), map flat (snd p))) (list_eval_1 self1 l) (list_eval_1 self2 (map flat l)).
Proof.
  induction l as [|x l IH]; cbn [list_eval_1 map]; [go|]. apply (s_bind flat); [go|]. intros v.
  destruct v; cbn [flat]; go. destruct v; cbn [flat]; go.
  - destruct l0; cbn [map]; [apply IH|]. apply s_ret. cbn [fst snd]. rewrite map_app. reflexivity.
  - destruct l0; cbn [map]; [apply IH|]. apply s_ret. cbn [fst snd]. rewrite map_app. reflexivity.
Qed.
Lemma s_eval_local f : sim (fun p => (flat_frame (fst p), snd p)) (eval_local self1 f) (eval_local self2 (flat_frame f)).
Proof.
  induction f as [|[k v] f IH]; cbn [eval_local flat_frame map fst snd]; [go|]. apply (s_bind flat); [go|]. intros v'.
  apply (s_bind (fun p => (flat_frame (fst p), snd p))); [exact IH|]. intros [f' b]. cbn [fst snd]. apply s_ret.
  cbn [fst snd flat_frame map]. rewrite term_flat. reflexivity.
Qed.
Lemma s_eval_named l : sim flat_d (eval_named self1 l) (eval_named self2 (flat_d l)).
Proof.
  induction l as [|[k v] f IH]; cbn [eval_named flat_d map fst snd]; [go|]. apply (s_bind flat); [go|]. intros v'.
  apply (s_bind flat_d); [exact IH|]. intros f'. go.
Qed.
Lemma s_chain l : forall x, sim flat (chain self1 l x) (chain self2 (map flat l) (flat x)).
Proof.
  induction l as [|k l IH]; intros x; cbn [chain map]; [go|]. apply (s_bind flat); [go|]. intros y. apply IH.
Qed.
Lemma s_foreach args l : sim (map flat) (foreach self1 args l) (foreach self2 (map flat args) (map flat l)).
Proof.
  induction l as [|x l IH]; cbn [foreach map]; [go|]. apply (s_bind flat); [apply s_chain|]. intros y.
  apply (s_bind (map flat)); [apply IH|]. intros r. apply s_ret. destruct y; reflexivity.
Qed.

Definition clo_flat (c c2 : closure) : Prop :=
  cl_env c2 = flat_frame (cl_env c) /\ cl_late c2 = cl_late c /\ cl_dflt c2 = flat_frame (cl_dflt c) /\
  forall f, cl_node c2 (flat_frame f) = flat (cl_node c f).
Lemma s_bind_param c c2 var v args named file pos : clo_flat c c2 ->
  sim flat (bind_param self1 c var v args named file pos)
           (bind_param self2 c2 var (flat v) (map flat args) (flat_d named) file pos).
Proof.
  intros (He & Hl & Hd & Hc). unfold bind_param. rewrite He, Hl, Hd. apply (s_bind flat).
  - destruct (dict_get var (cl_late c)) as [late|]; [|go]. apply s_self. cbn [flat]. f_equal.
    exact (bound_flat (fun k => k) late []).
  - intros v'. rewrite frame_set_flat, unassigned_flat. rewrite !Hc.
    match goal with |- context [if ?x then self1 _ else _] => set (d1 := x) end.
    match goal with |- context [if ?x then self2 _ else _] => set (d2 := x) end.
    assert (Ed : d2 = d1).
    { unfold d1, d2. destruct named as [|[? ?] ?], args; cbn [flat_d map]; try reflexivity.
      destruct (unassigned _); [|reflexivity]. rewrite dict_mem_flat. reflexivity. }
    rewrite Ed. destruct d1; go.
Qed.
Lemma s_apply_closure c c2 args named file pos : clo_flat c c2 ->
  sim flat (apply_closure self1 c args named file pos) (apply_closure self2 c2 (map flat args) (flat_d named) file pos).
Proof.
  intros Hc. pose proof Hc as (He & Hl & Hd & Hn). unfold apply_closure.
  destruct named as [|[var val] named]; cbn [flat_d map fst snd].
  2:{ rewrite He, dict_get_flat. destruct (dict_get (s_txt var) (cl_env c)) as [old|]; cbn [option_map]; [|go].
      apply (s_bind (fun x => x)); [destruct old; cbn [flat]; go; apply s_warn|]. intros _.
      apply (s_bind flat); [go|]. intros v. apply s_bind_param. exact Hc. }
  rewrite He, unassigned_flat. destruct args as [|a args]; cbn [map].
  - destruct (unassigned (cl_env c)) as [var|]; [|rewrite Hn; go]. rewrite Hd, dict_get_flat.
    destruct (dict_get var (cl_dflt c)) as [d|]; cbn [option_map]; [|rewrite Hn; go].
    apply (s_bind flat); [go|]. intros v. apply (s_bind_param c c2 var v [] []). exact Hc.
  - destruct (unassigned (cl_env c)) as [var|]; [|go; rewrite Hn; go].
    destruct (teqb var va_args); [apply (s_bind_param c c2 var (NList (a :: args)) [] []); exact Hc|].
    apply (s_bind (fun p => (option_map flat (fst p), map flat (snd p)))); [apply (s_list_eval_1 (a :: args))|].
    intros [[v|] args']; cbn [fst snd option_map]; [apply (s_bind_param c c2 var v args' []); exact Hc|].
    rewrite Hn. go.
Qed.
Lemma closure_flat call fn : match as_closure call fn, as_closure call (flat fn) with
  | Some c, Some c2 => clo_flat c c2 | None, None => True | _, _ => False end.
Proof.
  destruct fn; cbn [as_closure flat]; try exact Logic.I; unfold clo_flat; cbn [cl_env cl_late cl_dflt cl_node]; auto.
Qed.

Lemma m_reduce_list f : blind f -> forall l acc,
  msim flat (reduce_list f acc l) (reduce_list (fun args s => flat_run flat (f args s)) (flat acc) (map flat l)).
Proof.
  intros Hf. induction l as [|x l IH]; intros acc; cbn [reduce_list map]; [apply msim_ret; reflexivity|].
  apply (msim_bind flat); [apply (entry_sim f Hf [acc; x])|]. intros v. apply IH.
Qed.
Lemma m_py_reduce f : blind f -> forall l,
  msim flat (py_reduce f l) (py_reduce (fun args s => flat_run flat (f args s)) (map flat l)).
Proof.
  intros Hf l. unfold py_reduce. destruct l as [|a [|b [|c l]]]; cbn [map]; try apply msim_throw; rewrite iter_flat.
  - destruct (py_iter a) as [[|x l]|]; cbn [option_map map]; try apply msim_throw. apply m_reduce_list. exact Hf.
  - destruct (py_iter a) as [l|]; cbn [option_map]; try apply msim_throw. apply m_reduce_list. exact Hf.
Qed.
Lemma s_bind_find {A B} (g : A -> B) a k1 k2 :
  (forall o, blind_entry o -> sim g (k1 o) (k2 (option_map flat_entry o))) ->
  sim g (ebind (find_builtin ec a) k1) (ebind (find_builtin (flat_ec ec) a) k2).
Proof. intros H e s. apply (H (e_builtin ec (y_script s) a) (Hbuiltin _ _) e s). Qed.
Lemma s_apply_builtin a args file pos :
  sim flat (apply_builtin ec a args file pos) (apply_builtin (flat_ec ec) a (map flat args) file pos).
Proof.
  unfold apply_builtin. apply s_bind_find. intros [[v|f]|] Hf; cbn [option_map flat_entry].
  - destruct args; cbn [map]; go. apply s_ret. apply const_result_flat.
  - unfold apply_function. rewrite terms_flat, deadlocks_flat. destruct (is_term (NList args)).
    + apply (s_bind flat); [apply s_lift; apply entry_sim; exact Hf|]. intros v. apply s_ret. apply builtin_result_flat.
    + destruct (detect_deadlock _); go.
  - go.
Qed.
Lemma s_apply_special a args file pos :
  sim flat (apply_special ec a args file pos) (apply_special (flat_ec ec) a (map flat args) file pos).
Proof.
  unfold apply_special. cbv zeta.
  destruct (teqb (s_txt a) (lit "lazy")).
  { destruct args as [|x [|y l]]; cbn [map]; go. destruct x; cbn [flat]; go; apply s_ret; cbn [flat]; rewrite !map_map; reflexivity. }
  destruct (teqb (s_txt a) (lit "repr")).
  { destruct args as [|x [|y l]]; cbn [map]; go. cbn [flat_ec e_repr]. rewrite Hrepr. destruct x; cbn [flat]; go. }
  destruct (teqb (s_txt a) (lit "reduce")).
  { destruct args as [|h r]; cbn [map]; [go|].
    assert (G : sim flat
      (match r with [] => ethrow TypeError "yueval: unexpected arguments of reduce"
       | _ => if is_term (NList r) then ethrow AttributeError "fn"
              else if detect_deadlock (NList (h :: r)) then ethrow TypeError "yueval: irreducible expression"
              else eret (NApply (NSpecial a) (h :: r) [] file pos) end)
      (match map flat r with [] => ethrow TypeError "yueval: unexpected arguments of reduce"
       | _ => if is_term (NList (map flat r)) then ethrow AttributeError "fn"
              else if detect_deadlock (NList (flat h :: map flat r)) then ethrow TypeError "yueval: irreducible expression"
              else eret (NApply (NSpecial a) (flat h :: map flat r) [] file pos) end)).
    { rewrite terms_flat. change (flat h :: map flat r) with (map flat (h :: r)). rewrite deadlocks_flat.
      destruct r as [|y r]; cbn [map]; [go|]. destruct (is_term _); [go|]. destruct (detect_deadlock _); go. }
    destruct h; cbn [flat] in *; try (destruct r as [|y r]; cbn [map] in *; exact G).
    - rewrite terms_flat. destruct (is_term (NList r)); [|go]. apply s_bind_find.
      intros [[v|f]|] Hf; cbn [option_map flat_entry]; go. apply s_lift. apply m_py_reduce. exact Hf.
    - destruct r; cbn [map]; go. }
  destruct (teqb (s_txt a) (lit "isatom")).
  { destruct args as [|x [|y l]]; cbn [map]; go. apply s_ret. destruct x; reflexivity. }
  destruct (teqb (s_txt a) (lit "__PASSAGE__")).
  { destruct args as [|x [|y l]]; cbn [map]; go. rewrite list_flat. destruct (list_of x) as [l|]; cbn [option_map]; go.
    rewrite map_length. cbn [flat_ec e_passage]. apply (s_bind (fun x => x)); [apply s_lift, msim_modify; reflexivity|]. intros _.
    destruct (_ <=? _)%Z; [|go]. rewrite nth_flat. destruct (nth_error l _); cbn [option_map]; go. }
  destruct args; cbn [map]; go.
Qed.
Lemma s_subscript l i : sim flat (subscript l i) (subscript (map flat l) i).
Proof.
  unfold subscript. rewrite map_length. cbv zeta.
  destruct (i <? Z.of_nat (Datatypes.length l))%Z; [|go].
  match goal with |- context [if ?c then ethrow _ _ else _] => destruct c end; [go|].
  rewrite nth_flat. match goal with |- context [nth_error l ?k] => destruct (nth_error l k) end; cbn [option_map]; go.
Qed.
Lemma s_apply_number fn i args file pos :
  sim flat (apply_number fn i args file pos) (apply_number (flat fn) i (map flat args) file pos).
Proof.
  unfold apply_number. destruct args as [|a args]; cbn [map]; [go|].
  change (flat a :: map flat args) with (map flat (a :: args)). rewrite terms_flat. destruct (is_term _); [|go].
  cbn [map]. destruct args as [|b args]; cbn [map].
  - rewrite list_flat. destruct (list_of a); cbn [option_map]; [apply s_subscript|apply (s_subscript [a])].
  - apply (s_subscript (a :: b :: args)).
Qed.
Lemma forallb_named l : forallb (fun e : source * node => is_term (snd e)) (flat_d l) = forallb (fun e => is_term (snd e)) l.
Proof. induction l as [|[k v] l IH]; cbn [flat_d map forallb fst snd]; [reflexivity|]. rewrite term_flat. f_equal. exact IH. Qed.
Lemma s_apply_str fn s args named file pos :
  sim flat (apply_str ec self1 fn s args named file pos) (apply_str (flat_ec ec) self2 (flat fn) s (map flat args) (flat_d named) file pos).
Proof.
  unfold apply_str.
  assert (G : sim flat
    (ebind (eval_named self1 named) (fun named => if forallb (fun e => is_term (snd e)) named && is_term (NList args)
      then eret (NStr (raw (format_named ec named (format_args ec 0 args s)))) else eret (NApply fn args named file pos)))
    (ebind (eval_named self2 (flat_d named)) (fun named => if forallb (fun e => is_term (snd e)) named && is_term (NList (map flat args))
      then eret (NStr (raw (format_named (flat_ec ec) named (format_args (flat_ec ec) 0 (map flat args) s))))
      else eret (NApply (flat fn) (map flat args) named file pos)))).
  { apply (s_bind flat_d); [apply s_eval_named|]. intros nm. rewrite forallb_named, terms_flat. destruct (_ && _); [|go].
    apply s_ret. cbn [flat]. f_equal. f_equal.
    change (format_named (flat_ec ec) (flat_d nm) (format_args (flat_ec ec) 0 (map flat args) s))
      with (format_named ec (flat_d nm) (format_args ec 0 (map flat args) s)).
    rewrite (format_named_flat ec Hrepr), (format_args_flat ec Hrepr). reflexivity. }
  destruct named as [|[k v] named]; [destruct args as [|a args]; [apply s_ret; reflexivity|exact G]|exact G].
Qed.
Lemma s_named_unexpected named m1 m2 : sim flat m1 m2 -> sim flat (named_unexpected named m1) (named_unexpected (flat_d named) m2).
Proof. intros H. destruct named; cbn [flat_d map named_unexpected]; [exact H|go]. Qed.
Lemma s_eval_apply fn args named file pos :
  sim flat (eval_apply ec self1 fn args named file pos)
           (eval_apply (flat_ec ec) self2 (flat fn) (map flat args) (flat_d named) file pos).
Proof.
  unfold eval_apply. cbv zeta. replace (match flat fn with NVar _ a => Some a | _ => None end)
    with (match fn with NVar _ a => Some a | _ => None end) by (destruct fn; reflexivity).
  generalize (match fn with NVar _ a => Some a | _ => None end) as call. intros call.
  apply (s_bind flat); [go|]. clear fn. intros fn. apply (s_bind (map flat)); [apply s_eval_list|]. clear args. intros args.
  pose proof (closure_flat call fn) as Hc. destruct (as_closure call fn) as [c|] eqn:E1, (as_closure call (flat fn)) as [c2|] eqn:E2;
    try contradiction; [apply s_apply_closure; exact Hc|]. clear Hc E2.
  destruct fn; try discriminate E1; cbn [flat str_of]; go;
    try (match goal with |- sim flat (apply_str _ _ ?f _ _ _ _ _) _ => apply (s_apply_str f) end);
    try apply s_named_unexpected; try apply s_apply_builtin; try apply s_apply_special;
    try (match goal with |- sim flat (apply_number ?f _ _ _ _) _ => apply (s_apply_number f) end);
    try (destruct args; cbn [map]; [|go]; destruct named; cbn [flat_d map]; go; fail).
  apply (s_bind (map flat)); [apply s_foreach|]. intros r. go.
Qed.
Lemma s_eval_var reg a : sim flat (eval_var ec reg a) (eval_var (flat_ec ec) reg a).
Proof.
  unfold eval_var. apply (s_bind (map flat_frame)); [apply s_get|]. intros e. rewrite lookup_flat.
  destruct (lookup e (s_txt a)) as [v|]; cbn [option_map]; [destruct v; cbn [flat]; go|].
  destruct reg as [|[|r l]]; go. apply s_bind_find. intros [b|] _; cbn [option_map]; go.
  destruct (is_special _); [go|]. destruct (has_char _ _); go.
Qed.
Definition flat_b (b : list (list source * source * node)) := map (fun p => (fst p, flat (snd p))) b.
Lemma s_lambda_loop b : forall late dflt f,
  sim (fun r => (fst (fst r), flat_frame (snd (fst r)), flat_frame (snd r)))
    (lambda_loop self1 b late dflt f) (lambda_loop self2 (flat_b b) late (flat_frame dflt) (flat_frame f)).
Proof.
  induction b as [|[[lt var] d] b IH]; intros late dflt f; cbn [lambda_loop flat_b map fst snd]; [go|]. cbv zeta.
  apply (s_bind flat_frame).
  - assert (G : sim flat_frame (ebind (self1 d) (fun v => eret (dict_set (s_txt var) v dflt)))
                 (ebind (self2 (flat d)) (fun v => eret (dict_set (s_txt var) v (flat_frame dflt))))).
    { apply (s_bind flat); [go|]. intros v. apply s_ret. apply dict_set_flat. }
    destruct d; try exact G. apply s_ret; reflexivity.
  - intros dflt'. pose proof (frame_set_flat (if teqb (s_txt var) (lit "...") then va_args else s_txt var) NBound f) as E.
    cbn [flat] in E. rewrite E. apply IH.
Qed.
Lemma s_eval_lambda b f : sim flat (eval_lambda self1 b f) (eval_lambda self2 (flat_b b) (flat f)).
Proof.
  unfold eval_lambda. eapply s_bind; [apply (s_lambda_loop b [] [] [])|]. intros [[late dflt] fr]. cbn [fst snd]. go.
Qed.
Lemma s_assign vars : forall vals f,
  sim flat_frame (assign_list vars vals f) (assign_list vars (map flat vals) (flat_frame f)).
Proof.
  induction vars as [|v vars IH]; intros vals f; cbn [assign_list]; [go|]. destruct vals as [|x vals]; cbn [map].
  - apply (s_bind (fun x => x)); [apply s_warn|]. intros _.
    pose proof (frame_set_flat (s_txt v) NNone f) as E. cbn [flat] in E. rewrite E. apply (IH []).
  - rewrite frame_set_flat. apply IH.
Qed.
Lemma s_eval_binding lv a : sim flat_frame (eval_binding self1 lv a) (eval_binding self2 lv (flat a)).
Proof.
  unfold eval_binding. cbv zeta. generalize (match lv with LAtom a => [a] | LList l => l end) as vars. intros vars.
  pose proof (bound_flat (fun v : source => s_txt v) vars []) as Eb. cbn [flat_frame map] in Eb. rewrite Eb at 2.
  eapply s_bind; [apply s_frame; apply Hs|]. intros [v f1]. cbn [fst snd]. destruct lv as [x|l].
  - apply s_ret. apply frame_set_flat.
  - rewrite list_flat. destruct (list_of v) as [vals|]; cbn [option_map]; [apply s_assign|].
    apply s_ret. apply assign_all_flat.
Qed.
Lemma s_eval_set lv a : sim flat (eval_set ec self1 lv a) (eval_set (flat_ec ec) self2 lv (flat a)).
Proof.
  unfold eval_set.
  assert (G : sim flat (ebind (eval_binding self1 lv a) (fun f => eret (NEnv f))) (ebind (eval_binding self2 lv (flat a)) (fun f => eret (NEnv f)))).
  { apply (s_bind flat_frame); [apply s_eval_binding|]. intros f. go. }
  destruct lv as [x|l]; [|exact G]. destruct (teqb (s_txt x) output_var); [|exact G].
  apply (s_bind flat); [go|]. intros v. rewrite str_flat. apply (s_bind (fun x => x)); [|intros _; go].
  destruct (str_of v); [|apply s_warn]. apply s_lift, msim_modify. reflexivity.
Qed.
Lemma is_set_flat x : is_set (flat x) = is_set x.
Proof. destruct x; reflexivity. Qed.
Lemma s_eval_eval a d c :
  sim flat (eval_eval ec self1 parse a d c) (eval_eval (flat_ec ec) self2 (flat_parse parse) (flat a) d c).
Proof.
  unfold eval_eval. apply (s_bind flat); [go|]. intros v. rewrite str_flat. destruct (str_of v) as [t|]; [|go].
  cbv zeta. cbn [flat_ec e_parse].
  replace (match flat v with
           | NStr _ => if startswith (lit "($") (strip (unq (e_parse ec) t)) then strip (unq (e_parse ec) t)
                       else lit "($" ++ strip (unq (e_parse ec) t) ++ lit ")"
           | _ => t end)
    with (match v with
           | NStr _ => if startswith (lit "($") (strip (unq (e_parse ec) t)) then strip (unq (e_parse ec) t)
                       else lit "($" ++ strip (unq (e_parse ec) t) ++ lit ")"
           | _ => t end) by (destruct v; reflexivity).
  generalize (match v with
           | NStr _ => if startswith (lit "($") (strip (unq (e_parse ec) t)) then strip (unq (e_parse ec) t)
                       else lit "($" ++ strip (unq (e_parse ec) t) ++ lit ")"
           | _ => t end) as code. intros code.
  apply (s_bind (map flat)).
  - apply s_lift. apply msim_get. intros st. apply (msim_bind (fun x => x)); [apply msim_modify; reflexivity|]. intros _.
    intros s. unfold flat_parse, flat_run. cbv zeta. rewrite (Hparse _ s). change (y_inclusion (flat_st st)) with (y_inclusion st).
    destruct (parse _ s) as [[l s']| |]; cbn [on_st]; [|reflexivity|reflexivity]. rewrite flat_st_flat. reflexivity.
  - intros l. rewrite (existsb_map_F is_set flat l) by (apply Forall_forall; intros; apply is_set_flat).
    destruct l as [|x [|y l]]; cbn [map]; [go| |].
    + rewrite is_set_flat. destruct (is_set x); go.
    + destruct (existsb is_set _); go.
Qed.
Lemma s_eval_emit reg a ast : sim flat (eval_emit self1 reg a ast) (eval_emit self2 reg a (flat ast)).
Proof.
  unfold eval_emit. apply (s_bind (map flat_frame)); [apply s_get|]. intros e. rewrite lookup_flat.
  assert (G : forall x v, sim flat
     (ebind (mod_env (update_variable (s_txt a) v)) (fun _ => if truthy ast then
        ebind (self1 (NApply ast [v] [] None 0)) (fun w => ebind (mod_env (update_variable (s_txt a) w)) (fun _ => eret x)) else eret x))
     (ebind (mod_env (update_variable (s_txt a) (flat v))) (fun _ => if truthy (flat ast) then
        ebind (self2 (NApply (flat ast) [flat v] [] None 0)) (fun w => ebind (mod_env (update_variable (s_txt a) w)) (fun _ => eret (flat x))) else eret (flat x)))).
  { intros x v. rewrite truthy_flat. apply (s_bind (fun x => x)); [apply s_mod; intros e'; apply update_flat|]. intros _.
    destruct (truthy ast); [|go]. apply (s_bind flat); [go|]. intros w.
    apply (s_bind (fun x => x)); [apply s_mod; intros e'; apply update_flat|]. intros _. go. }
  destruct (lookup e (s_txt a)) as [v|]; cbn [option_map]; [|go].
  destruct v; cbn [flat]; try (match goal with |- sim _ (ebind (mod_env (update_variable _ ?v)) _) _ => exact (G v v) end); go.
  - destruct l as [|x l]; cbn [map]; [exact (G NNone (NList []))|exact (G x (NList l))].
  - destruct l as [|x l]; cbn [map]; [exact (G NNone (NT [] i))|exact (G x (NT l i))].
Qed.
Lemma s_eval_body x : sim flat (eval_body ec self1 parse x) (eval_body (flat_ec ec) self2 (flat_parse parse) (flat x)).
Proof.
  destruct x; cbn [eval_body flat]; go.
  - apply (s_bind (map flat)); [apply (s_list_loop l [])|]. intros l'. go.
  - apply s_eval_T.
  - apply s_eval_var.
  - apply s_eval_apply.
  - apply s_eval_eval.
  - rewrite str_flat. destruct (str_of _) as [t|]; [|go]. cbn [flat_ec e_names].
    apply (s_bind (fun x => x)); [apply s_lift, msim_natural, n_lift|]. intros names.
    apply (s_bind (map flat_frame)); [apply s_get|]. intros e. rewrite infix_frame_flat. go.
  - apply s_eval_set.
  - apply (s_bind flat_frame); [apply s_eval_binding|]. intros f. eapply s_bind; [apply s_frame; apply Hs|]. intros [v f']. cbn [fst snd]. go.
  - apply s_ret. cbn [flat map fst snd]. f_equal. f_equal. f_equal. f_equal.
    exact (bound_flat (fun v : source => s_txt v) pars []).
  - apply s_eval_emit.
  - apply s_eval_lambda.
  - apply (s_bind (map flat_frame)); [apply s_get|]. intros e. rewrite lookup_flat.
    destruct (lookup e (s_txt a)) as [v|]; cbn [option_map]; [|go].
    destruct v; cbn [flat list_of]; go; rewrite list_to_bound_flat;
      (destruct (list_to_bound l) as [b|] eqn:Eb; [|go]);
      (replace b with (flat_b b) at 2; [apply s_eval_lambda|]);
      (revert b Eb; induction l as [|z l IHl]; intros b Eb; cbn [list_to_bound] in Eb;
       [inversion Eb; reflexivity|]; destruct z; try discriminate Eb; destruct (list_to_bound l) as [b'|]; inversion Eb;
       cbn [flat_b map fst snd flat]; f_equal; apply IHl; reflexivity).
  - rewrite term_flat, truthy_flat. destruct (is_term _); [|go]. apply s_self. destruct (truthy _); reflexivity.
  - fold (flat_frame env). eapply s_bind; [apply s_frame; apply Hs|]. intros [v f']. cbn [fst snd]. rewrite unassigned_flat. destruct (unassigned env); go.
  - fold (flat_frame env). eapply s_bind; [apply s_eval_local|]. intros [f' b]. cbn [fst snd]. destruct b; [|go].
    apply s_self. cbn [flat]. change (expand (flat_ec ec)) with (expand ec). rewrite (expand_flat ec Hrepr). reflexivity.
  - fold (flat_frame env). eapply s_bind; [apply s_eval_local|]. intros [f' b]. cbn [fst snd]. destruct b; [|go].
    apply (s_bind flat).
    + apply s_lift. intros s. unfold lift. cbn [flat_ec e_infix]. pose proof (Hinfix (lstrip expr) f') as Hi.
      inversion Hi as [x x' Hx E1 E2|z E1 E2|E1 E2]; [rewrite Hx| |]; reflexivity.
    + intros v. apply s_ret. apply const_result_flat.
  - rewrite term_flat, truthy_flat. destruct (is_term _); [|go].
    apply (s_bind flat); [apply s_self; destruct (truthy _); reflexivity|]. intros w. go.
  - fold (flat_frame env). eapply s_bind; [apply s_frame; apply Hs|]. intros [v f']. cbn [fst snd]. rewrite term_flat. destruct (is_term v); go.
Qed.
End Body.
Lemma s_yueval n : forall x, sim flat (yueval ec parse n x) (yueval (flat_ec ec) (flat_parse parse) n (flat x)).
Proof.
  induction n as [|n IH]; intros x; cbn [yueval]; [intros e s _; reflexivity|]. apply s_eval_body. exact IH.
Qed.
End Sim.
