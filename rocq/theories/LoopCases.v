(** * A recursive function that another function calls *)
From Coq Require Import List NArith ZArith Bool String Lia Arith.
From Verif Require Import PyStr PyStrFacts Ast Lex LexFacts Parse Shell Eval Builtin EnvSpec EnvFacts EvalSpec EvalMono Pp PpCases RunCases.
Import ListNotations.
Open Scope list_scope.
Open Scope N_scope.

Definition kept (v : node) : Prop := match v with NVar _ _ | NApply _ _ _ _ _ | NInt _ => True | _ => False end.
Lemma loop_fuel self acc x r e s : self x e s = Fuel -> list_loop self acc (x :: r) e s = Fuel.
Proof. intros H. cbn [list_loop]. unfold ebind. rewrite H. reflexivity. Qed.
Lemma loop_keep self acc x r e s v e1 s1 : self x e s = Ok (v, e1, s1) -> kept v -> list_loop self acc (x :: r) e s = list_loop self (acc ++ [v]) r e1 s1.
Proof. intros H K. cbn [list_loop]. unfold ebind, eret. rewrite H. destruct v; try destruct K; reflexivity. Qed.
Lemma text_S ec parse n l a b e s : yueval ec parse (S n) (NText l a b) e s = yueval ec parse n (NT l (IndStr [])) e s.
Proof. reflexivity. Qed.
Lemma T_S ec parse n l i e s : yueval ec parse (S n) (NT l i) e s = eval_T ec (yueval ec parse n) l i e s.
Proof. reflexivity. Qed.
Lemma loop_next (self : node -> E node) a x b y rest i e s f : self (NSet a x) e s = Ok (NEnv f, e, s) ->
  self (NSetClosure (NT (NSet b y :: rest) i) f) e s = Fuel -> t_loop self false i 0 [] (NSet a x :: NSet b y :: rest) e s = Fuel.
Proof.
  intros H3 H4. rewrite t_loop_item by reflexivity. unfold ebind at 1. rewrite H3. unfold t_after, ebind.
  replace (mark_next i (NSet b y :: rest)) with (NSet b y :: rest) by (unfold mark_next; destruct (is_ind_str i); reflexivity). rewrite H4. reflexivity.
Qed.
Lemma loop_first (self : node -> E node) a x rest i e s : self (NSet a x) e s = Fuel -> t_loop self false i 0 [] (NSet a x :: rest) e s = Fuel.
Proof. intros H2. rewrite t_loop_item by reflexivity. unfold ebind. rewrite H2. reflexivity. Qed.
Lemma T_fuel ec self l i e s : t_loop self false i 0 [] l e s = Fuel -> eval_T ec self l i e s = Fuel.
Proof. intros H. unfold eval_T, ebind. rewrite H. reflexivity. Qed.
Lemma closure_fuel ec parse n x f e s : yueval ec parse n x (f :: e) s = Fuel -> yueval ec parse (S n) (NSetClosure x f) e s = Fuel.
Proof. intros H. cbn [yueval eval_body]. unfold ebind, in_frame. rewrite H. reflexivity. Qed.
Section Loop.
Variable ec : ectx.
Hypothesis Bsub : forall i, e_builtin ec i (lit "sub") = Some (BFun b_sub).
Hypothesis Bmul : forall i, e_builtin ec i (lit "mul") = Some (BFun b_mul).
Variable parse : text -> M (list node).
Let ev := yueval ec parse.
(** an argument that waits for [x] *)
Inductive waiting : node -> Prop :=
| W_x r a : s_txt a = lit "x" -> waiting (NVar r a)
| W_less a t f p : s_txt a = lit "sub" -> waiting t -> waiting (NApply (NBuiltin a) [t; NInt 1] [] f p).
Definition var (n : string) (x : node) : Prop := exists r a, x = NVar r a /\ s_txt a = lit n.
Definition known (n : string) (x : node) : Prop := exists a, x = NVar (RList []) a /\ s_txt a = lit n.
(** ($ sub n 1), ($ mul n ($ fact ($ sub n 1))) and the function *)
Definition is_less (x : node) : Prop := exists h n f p, x = NApply h [n; NInt 1] [] f p /\ known "sub" h /\ var "n" n.
Definition is_step (x : node) : Prop := exists h n g z f p f' p', x = NApply h [n; NApply g [z] [] f p] [] f' p' /\ known "mul" h /\ var "n" n /\ var "fact" g /\ is_less z.
Definition is_fact (x : node) : Prop := exists n y z f p, x = NLClosure (NApply (NCondClosure n y z) [] [] f p) [(lit "n", NBound)] [] [] /\ var "n" n /\ is_step y.
(** where [fact] is the function and [x] has no value *)
Definition stage (e : env) : Prop := (exists c, lookup e (lit "fact") = Some c /\ is_fact c) /\ lookup e (lit "sub") = None /\ lookup e (lit "mul") = None /\ lookup e (lit "x") = Some NBound.
Definition waits (z : node) (e : env) (s : yst) : Prop := forall m, ev m z e s = Fuel \/ exists t, waiting t /\ ev m z e s = Ok (t, e, s).

Lemma var_value n x c e s : var n x -> lookup e (lit n) = Some c -> c <> NBound -> forall m, ev m x e s = Fuel \/ ev m x e s = Ok (c, e, s).
Proof.
  intros (r & a & -> & Ha) Hl Hc [|m]; [left; reflexivity|right]. unfold ev. cbn [yueval eval_body]. unfold eval_var, ebind, get_env. rewrite Ha, Hl. destruct c; try reflexivity. congruence.
Qed.
Lemma builtin_value n f h e s : known n h -> lookup e (lit n) = None -> (forall i, e_builtin ec i (lit n) = Some (BFun f)) ->
  exists a, s_txt a = lit n /\ forall m, ev m h e s = Fuel \/ ev m h e s = Ok (NBuiltin a, e, s).
Proof.
  intros (a & -> & Ha) Hl Hb. exists a. split; [exact Ha|]. intros [|m]; [left; reflexivity|right]. unfold ev. cbn [yueval eval_body]. unfold eval_var, ebind, get_env. rewrite Ha, Hl.
  unfold find_builtin, lift_m, bind, get_st, ret. rewrite Hb. reflexivity.
Qed.
Lemma waiting_waits_term t : waiting t -> is_term t = false.
Proof. intros H. destruct H; reflexivity. Qed.
(** [h] applied to the argument [z], which waits, and 1 *)
Lemma less_waits h a z e s f p : s_txt a = lit "sub" -> (forall m, ev m h e s = Fuel \/ ev m h e s = Ok (NBuiltin a, e, s)) -> waits z e s -> waits (NApply h [z; NInt 1] [] f p) e s.
Proof.
  intros Ha Hh Hz [|m]; [left; reflexivity|]. unfold waits, ev in *.
  destruct (Hh m) as [E|E]; [left; cbn [yueval eval_body]; unfold eval_apply, ebind at 1; rewrite E; reflexivity|].
  destruct m as [|m]; [left; cbn [yueval] in E; discriminate E|].
  destruct (Hz m) as [Ez|(t & Wt & Ez)].
  - left. change (eval_apply ec (yueval ec parse (S m)) h [z; NInt 1] [] f p e s = Fuel). unfold eval_apply, ebind at 1. rewrite E. unfold ebind at 1, eval_list, ebind at 1.
    cbn [yueval eval_body]. unfold ebind at 1. rewrite loop_fuel by exact Ez. reflexivity.
  - right. exists (NApply (NBuiltin a) [t; NInt 1] [] f p). split; [apply W_less; assumption|].
    change (eval_apply ec (yueval ec parse (S m)) h [z; NInt 1] [] f p e s = Ok (NApply (NBuiltin a) [t; NInt 1] [] f p, e, s)). unfold eval_apply, ebind at 1. rewrite E. unfold ebind at 1, eval_list, ebind at 1.
    cbn [yueval eval_body]. unfold ebind at 1. rewrite (loop_keep _ _ _ _ _ _ _ _ _ Ez) by (destruct Wt; exact Logic.I).
    assert (Hm : exists k, m = S k). { destruct m; [discriminate Ez|eauto]. } destruct Hm as (k & ->).
    rewrite (loop_keep _ _ (NInt 1) [] e s (NInt 1) e s) by first [reflexivity|exact Logic.I].
    destruct Wt; cbn [list_of list_loop]; unfold ebind, eret; cbn [app list_of as_closure named_unexpected]; unfold apply_builtin, ebind, find_builtin, lift_m, bind, get_st, ret; rewrite Ha, Bsub; reflexivity.
Qed.
Lemma waiting_waits t e s : stage e -> waiting t -> waits t e s.
Proof.
  intros He H. induction H as [r a Ha|a t f p Ha _ IH].
  - intros [|m]; [left; reflexivity|right]. exists (NVar r a). split; [apply W_x, Ha|]. unfold ev. cbn [yueval eval_body]. unfold eval_var, ebind, get_env. destruct He as (_ & _ & _ & Hx). rewrite Ha, Hx. reflexivity.
  - apply (less_waits _ a); [exact Ha| |exact IH]. intros [|m]; [left; reflexivity|right; reflexivity].
Qed.
Lemma fact_loops m : forall e s g z f p, stage e -> var "fact" g -> waits z e s -> ev m (NApply g [z] [] f p) e s = Fuel.
Proof.
  induction m as [m IH] using lt_wf_ind. intros e s g z f p He Hg Hz. destruct m as [|m]; [reflexivity|].
  pose proof He as ((c & Hc & Fc) & Hs & Hm & Hx). assert (Cb : c <> NBound) by (destruct Fc as (? & ? & ? & ? & ? & -> & _); discriminate).
  unfold ev. cbn [yueval eval_body]. unfold eval_apply, ebind at 1. destruct (var_value "fact" g c e s Hg Hc Cb m) as [E|E]; unfold ev in E; rewrite E; [reflexivity|]. clear E.
  unfold ebind at 1, eval_list. unfold ebind at 1. destruct m as [|m]; [reflexivity|].
  assert (El : ev (S m) (NList [z]) e s = Fuel \/ exists t, waiting t /\ ev (S m) (NList [z]) e s = Ok (NList [t], e, s)).
  { unfold ev. cbn [yueval eval_body]. unfold ebind. destruct (Hz m) as [E|(t & Wt & E)]; unfold ev in E; [left; rewrite loop_fuel by exact E; reflexivity|right]. exists t. split; [exact Wt|].
    rewrite (loop_keep _ _ _ _ _ _ _ _ _ E) by (destruct Wt; exact Logic.I). reflexivity. }
  unfold ev in El. destruct El as [E|(t & Wt & E)]; rewrite E; [reflexivity|]. clear E. cbn [list_of eret].
  destruct Fc as (n & y & w & fi & po & -> & Hn & Hy). cbn [as_closure]. unfold apply_closure. cbn [cl_env unassigned]. replace (teqb (lit "n") va_args) with false by reflexivity. cbn match.
  unfold ebind at 1. cbn [list_eval_1]. unfold ebind at 1. destruct (waiting_waits t e s He Wt (S m)) as [E|(u & Wu & E)]; unfold ev in E; rewrite E; [reflexivity|]. clear E.
  replace (match u with NEmbed (NList (x :: m0)) | NEmbed (NT (x :: m0) _) => eret (Some x, m0 ++ []) | NEmbed (NList []) | NEmbed (NT [] _) => eret (Some NNone, []) | NEmbed (NVar _ _) | NEmbed (NApply _ _ _ _ _) => eret (None, [t]) | NEmbed w0 => eret (Some w0, []) | _ => eret (Some u, []) end e s)
    with (Ok (Some u, @nil node, e, s)) by (destruct Wu; reflexivity).
  unfold bind_param. cbn [cl_late dict_get cl_env]. unfold ebind at 1, eret at 1.
  replace (frame_set (lit "n") u [(lit "n", NBound)]) with [(lit "n", u)] by reflexivity.
  replace (unassigned [(lit "n", u)]) with (@None text) by (destruct Wu; reflexivity). cbn [cl_node]. cbn match.
  cbn [yueval eval_body]. unfold ebind at 1, in_frame.
  match goal with |- context [yueval ec parse m (NApply (NCondClosure n y w) [] [] fi po) ?E s] => set (e1 := E) end.
  enough (K : yueval ec parse m (NApply (NCondClosure n y w) [] [] fi po) e1 s = Fuel) by (rewrite K; reflexivity).
  assert (Hn1 : lookup e1 (lit "n") = Some u) by reflexivity. assert (Ub : u <> NBound) by (destruct Wu; discriminate).
  assert (He1 : stage e1). { split; [exists (NLClosure (NApply (NCondClosure n y w) [] [] fi po) [(lit "n", NBound)] [] []); split; [exact Hc|exists n, y, w, fi, po; auto]|]. split; [exact Hs|]. split; [exact Hm|exact Hx]. }
  destruct m as [|m]; [reflexivity|]. cbn [yueval eval_body]. unfold eval_apply, ebind at 1.
  enough (K : yueval ec parse m (NCondClosure n y w) e1 s = Fuel) by (rewrite K; reflexivity).
  destruct m as [|m]; [reflexivity|]. cbn [yueval eval_body]. unfold ebind at 1. destruct (var_value "n" n u e1 s Hn Hn1 Ub m) as [E|E]; unfold ev in E; rewrite E; [reflexivity|]. clear E.
  rewrite (waiting_waits_term u Wu). unfold ebind at 1. enough (K : yueval ec parse m y e1 s = Fuel) by (rewrite K; reflexivity).
  destruct Hy as (h & n' & g' & z' & f1 & p1 & f2 & p2 & -> & Hh & Hn' & Hg' & Hz').
  destruct m as [|m]; [reflexivity|]. cbn [yueval eval_body]. unfold eval_apply, ebind at 1.
  destruct (builtin_value "mul" b_mul h e1 s Hh Hm Bmul) as (a & _ & Ea). destruct (Ea m) as [E|E]; unfold ev in E; rewrite E; [reflexivity|]. clear E Ea.
  unfold ebind at 1, eval_list. unfold ebind at 1. destruct m as [|m]; [reflexivity|]. cbn [yueval eval_body]. unfold ebind at 1.
  destruct (var_value "n" n' u e1 s Hn' Hn1 Ub m) as [E|E]; unfold ev in E; [rewrite loop_fuel by exact E; reflexivity|]. rewrite (loop_keep _ _ _ _ _ _ _ _ _ E) by (destruct Wu; exact Logic.I). clear E.
  assert (Hcall : yueval ec parse m (NApply g' [z'] [] f1 p1) e1 s = Fuel).
  { apply IH; [lia|exact He1|exact Hg'|]. destruct Hz' as (h2 & n2 & f3 & p3 & -> & Hh2 & Hn2). destruct (builtin_value "sub" b_sub h2 e1 s Hh2 Hs Bsub) as (a2 & Ha2 & Ea2).
    apply (less_waits _ a2); [exact Ha2|exact Ea2|]. intros k. destruct (var_value "n" n2 u e1 s Hn2 Hn1 Ub k) as [E|E]; [left; exact E|right; exists u; split; [exact Wu|exact E]]. }
  rewrite loop_fuel by exact Hcall. reflexivity.
Qed.

Lemma either x e s v e' s' : (exists k, ev k x e s = Ok (v, e', s')) -> forall m, ev m x e s = Fuel \/ ev m x e s = Ok (v, e', s').
Proof.
  intros [k Hk] m. unfold ev in *. assert (Hb : yueval ec parse (k + m) x e s = Ok (v, e', s')).
  { rewrite <- Hk. apply yueval_mono; [lia|]. rewrite Hk. discriminate. }
  destruct (yueval ec parse m x e s) as [r| |] eqn:E; [right|exfalso|left; reflexivity].
  - rewrite <- E, <- Hb. symmetry. apply yueval_mono; [lia|]. rewrite E. discriminate.
  - assert (Hc : yueval ec parse (k + m) x e s = yueval ec parse m x e s) by (apply yueval_mono; [lia|rewrite E; discriminate]). rewrite Hb, E in Hc. discriminate Hc.
Qed.
(** a function that applies [fact] to its parameter *)
Definition is_wrapper (x : node) : Prop := exists q g r a f p, x = NLambda [([], q, NNone)] (NApply g [NVar r a] [] f p) /\ s_txt q = lit "x" /\ s_txt a = lit "x" /\ var "fact" g.
Definition ground (e : env) : Prop := (exists c, lookup e (lit "fact") = Some c /\ is_fact c) /\ lookup e (lit "sub") = None /\ lookup e (lit "mul") = None.
Lemma wrapper_loops x e s : is_wrapper x -> ground e -> forall m, ev m x e s = Fuel.
Proof.
  intros (q & g & r & a & f & p & -> & Hq & Ha & Hg) (Hf & Hs & Hm) [|m]; [reflexivity|]. unfold ev. cbn [yueval eval_body]. unfold eval_lambda. cbn [lambda_loop]. unfold ebind, eret. cbn match. rewrite Hq.
  change (teqb (lit "x") (lit "...")) with false. cbn match. destruct m as [|m]; [reflexivity|]. cbn [yueval eval_body]. unfold ebind, in_frame.
  match goal with |- context [yueval ec parse m (NApply g [NVar r a] [] f p) ?E s] => set (e1 := E) end.
  assert (He : stage e1). { split; [exact Hf|]. split; [exact Hs|]. split; [exact Hm|reflexivity]. }
  enough (K : yueval ec parse m (NApply g [NVar r a] [] f p) e1 s = Fuel) by (rewrite K; reflexivity).
  apply fact_loops; [exact He|exact Hg|]. apply waiting_waits; [exact He|apply W_x, Ha].
Qed.
Lemma set_loops a x e s : s_txt a = lit "g" -> is_wrapper x -> ground e -> forall m, ev m (NSet (LAtom a) x) e s = Fuel.
Proof.
  intros Ha Hx (Hf & Hs & Hm) [|m]; [reflexivity|]. unfold ev. cbn [yueval eval_body]. unfold eval_set. rewrite Ha. change (teqb (lit "g") output_var) with false. cbn match.
  unfold ebind at 1, eval_binding. unfold ebind at 1, in_frame. cbn [fold_left]. rewrite Ha.
  match goal with |- context [yueval ec parse m x ?E s] => set (e1 := E) end.
  enough (K : yueval ec parse m x e1 s = Fuel) by (rewrite K; reflexivity). apply wrapper_loops; [exact Hx|]. split; [exact Hf|]. split; [exact Hs|exact Hm].
Qed.
Lemma text_loops a x rest i e s : s_txt a = lit "g" -> is_wrapper x -> ground e -> forall m, ev m (NT (NSet (LAtom a) x :: rest) i) e s = Fuel.
Proof.
  intros Ha Hx He [|m]; [reflexivity|]. unfold ev. rewrite T_S. apply T_fuel, loop_first. exact (set_loops a x e s Ha Hx He m).
Qed.
Lemma source_loops a x b y rest i s c : s_txt a = lit "fact" -> (exists k, ev k (NSet (LAtom a) x) [] s = Ok (NEnv [(lit "fact", c)], [], s)) -> is_fact c ->
  s_txt b = lit "g" -> is_wrapper y -> forall m, ev m (NT (NSet (LAtom a) x :: NSet (LAtom b) y :: rest) i) [] s = Fuel.
Proof.
  intros Ha Hx Hc Hb Hy [|m]; [reflexivity|]. unfold ev. rewrite T_S. apply T_fuel.
  destruct (either _ _ _ _ _ _ Hx m) as [E|E]; unfold ev in E; [apply loop_first; exact E|].
  eapply loop_next; [exact E|]. clear E. destruct m as [|m]; [reflexivity|]. apply closure_fuel.
  apply (text_loops b y rest i [[(lit "fact", c)]] s Hb Hy). split; [exists c; split; [reflexivity|exact Hc]|]. split; reflexivity.
Qed.
End Loop.

(** ** The source *)
Definition loop_source : text := lit "($set fact \n.($ ($ mul n ($ fact ($ sub n 1))) ? n | 1))($set g \x.($ fact x))($ g 3)".
Notation loop_parse := (yuparse (run_ctx world0 run_config (Some (lit "a.yu-c")) (Some (lit "a.c"))) 1).
Notation loop_ec := (run_ectx world0 run_config (Some (lit "a.yu-c")) (Some (lit "a.c")) process0).
Notation loop_start := (run_start loop_source (Some (lit "a.yu-c")) (Some (lit "a.c")) process0).
Lemma loop_parsed : exists l, loop_parse (input_key (Some (lit "a.yu-c"))) loop_start = Ok (l, loop_start) /\ exists a x b y rest, l = NSet (LAtom a) x :: NSet (LAtom b) y :: rest /\
  s_txt a = lit "fact" /\ s_txt b = lit "g" /\ is_wrapper y /\ exists c, is_fact c /\ exists k, yueval loop_ec loop_parse k (NSet (LAtom a) x) [] loop_start = Ok (NEnv [(lit "fact", c)], [], loop_start).
Proof.
  eexists. split; [vm_compute; reflexivity|]. do 5 eexists. split; [reflexivity|]. split; [reflexivity|]. split; [reflexivity|]. split.
  - do 6 eexists. split; [reflexivity|]. split; [reflexivity|]. split; [reflexivity|]. do 2 eexists. split; reflexivity.
  - eexists. split; [|exists 20%nat; vm_compute; reflexivity]. do 5 eexists. split; [reflexivity|]. split; [do 2 eexists; split; reflexivity|].
    do 8 eexists. split; [reflexivity|]. split; [eexists; split; reflexivity|]. split; [do 2 eexists; split; reflexivity|]. split; [do 2 eexists; split; reflexivity|].
    do 4 eexists. split; [reflexivity|]. split; [eexists; split; reflexivity|do 2 eexists; split; reflexivity].
Qed.
Lemma pp_fuel w cfg d n t input output pr l s : yuparse (run_ctx w cfg input output) d (input_key input) (run_start t input output pr) = Ok (l, s) ->
  yueval (run_ectx w cfg input output pr) (yuparse (run_ctx w cfg input output) d) n (NText l 0 0) [] s = Fuel -> pp w cfg d n t input output pr = Fuel.
Proof. intros H1 H2. unfold pp. rewrite H1, H2. reflexivity. Qed.
Lemma loop_run n : pp world0 run_config 1 n loop_source (Some (lit "a.yu-c")) (Some (lit "a.c")) process0 = Fuel.
Proof.
  destruct loop_parsed as (l & El & a & x & b & y & rest & -> & Ha & Hb & Hy & c & Hc & Hk). apply (pp_fuel _ _ _ _ _ _ _ _ _ _ El).
  destruct n as [|n]; [reflexivity|]. rewrite text_S. exact (source_loops loop_ec (fun _ => eq_refl) (fun _ => eq_refl) loop_parse a x b y rest (IndStr []) loop_start c Ha Hk Hc Hb Hy n).
Qed.
Lemma loop_never : ~ exists n r, pp world0 run_config 1 n (lit "($set fact \n.($ ($ mul n ($ fact ($ sub n 1))) ? n | 1))($set g \x.($ fact x))($ g 3)") (Some (lit "a.yu-c")) (Some (lit "a.c")) process0 = Ok r.
Proof.
  intros (n & r & H). pose proof (loop_run n) as K. change (lit "($set fact \n.($ ($ mul n ($ fact ($ sub n 1))) ? n | 1))($set g \x.($ fact x))($ g 3)") with loop_source in H.
  rewrite K in H. discriminate H.
Qed.
