(** Skip, comments, subscripts, emit, passages (proofs only). *)
From Coq Require Import List NArith ZArith Bool String Lia ZifyBool ZifyNat ZifyN.
From Verif Require Import PyStr Ast Lex Parse Final Eval PyStrFacts EnvSpec EnvFacts EvalSpec EvalMono EvalKeep EvalPure EvalFacts EvalFacts2 EvalFacts3.
Import ListNotations.
Open Scope list_scope.

Section Facts.
Variables (ec : ectx) (parse : text -> M (list node)).
Notation ev := (yueval ec parse).
Notation fin := (finishes ec parse).
Notation evs := (evals ec parse).

Lemma ebind_assoc {A B C} (m : E A) (k : A -> E B) (h : B -> E C) e s :
  ebind (ebind m k) h e s = ebind m (fun a => ebind (k a) h) e s.
Proof. unfold ebind. destruct (m e s) as [[[a e1] s1]| |]; reflexivity. Qed.
Definition t_end (ind : indent) (t : list node) : E node :=
  if is_term (NT t ind) then
    if e_browse ec
    then ebind (lift_m (plain_with_browse ec (NT t ind))) (fun r =>
         eret (NResult (r_txt r) (r_browse r) (r_offset r)))
    else eret (NRaw (plain ec (NT t ind)))
  else eret (NT t ind).
Lemma fin_T items ind e s r :
  fin (NT items ind) e s r <-> gives_r (fun n => ebind (t_loop (ev n) false ind O [] items) (t_end ind)) e s r.
Proof. rewrite fin_body. reflexivity. Qed.

Lemma comment_vanishes ind rest e s :
  same_outcomes ec parse (NT (NComment :: rest) ind) e s (NT (trimmed_next ind rest) ind) e s.
Proof.
  intros r. rewrite !fin_T. apply gives_ext. intros n. rewrite t_loop_comment, t_loop_trimmed. reflexivity.
Qed.
Lemma fin_T_item x rest ind e s v e1 s1 r : x <> NComment -> evs x e s v e1 s1 ->
  fin (NT (x :: rest) ind) e s r <->
  gives_r (fun n => ebind (t_after (ev n) ind (indent_after ind x) (is_apply x) [] rest v) (t_end ind)) e1 s1 r.
Proof.
  intros Hx Hv. rewrite fin_T. apply comment_dec in Hx.
  rewrite (gives_ext _ (fun n => ebind (ev n x) (fun v => ebind (t_after (ev n) ind (indent_after ind x) (is_apply x) [] rest v) (t_end ind)))).
  2: { intros n. rewrite t_loop_item by exact Hx. apply ebind_assoc. }
  apply (gives_bind (fun n => ev n x) (fun n v => ebind (t_after (ev n) ind (indent_after ind x) (is_apply x) [] rest v) (t_end ind)) e s v e1 s1).
  - apply rises_ev.
  - intros a. apply (rises_bind (fun n => t_after (ev n) ind (indent_after ind x) (is_apply x) [] rest a) (fun _ => t_end ind)).
    + apply rises_t_after.
    + intros b. apply rises_const.
  - apply evals_fin, Hv.
Qed.
Lemma skip_to_end_of_module x m l ind e s e1 s1 : x <> NComment -> evs x e s NSkip e1 s1 -> complete m ->
  same_outcomes ec parse (NT (x :: m ++ NImportEnd :: l) ind) e s (NT l ind) e1 s1.
Proof.
  intros Hx Hv Hm r. rewrite (fin_T_item _ _ _ _ _ _ _ _ _ Hx Hv), fin_T. apply gives_ext. intros n.
  unfold t_after, ebind. rewrite t_loop_scan, scan_complete by exact Hm. reflexivity.
Qed.
Lemma skip_to_end x r0 ind e s e1 s1 : x <> NComment -> evs x e s NSkip e1 s1 -> never_closed r0 ->
  same_outcomes ec parse (NT (x :: r0) ind) e s (NT [] ind) e1 s1.
Proof.
  intros Hx Hv Hm r. rewrite (fin_T_item _ _ _ _ _ _ _ _ _ Hx Hv), fin_T. apply gives_ext. intros n.
  unfold t_after, ebind. apply scan_none in Hm. rewrite t_loop_scan, Hm. reflexivity.
Qed.
Lemma never_closed_complete m : complete m -> never_closed m.
Proof.
  intros Hm. apply scan_none. rewrite <- (app_nil_r m), scan_complete by exact Hm. reflexivity.
Qed.

(** ** Subscripts *)
Lemma rev_nth (l : list node) i : (i < List.length l)%nat ->
  nth_error (rev l) i = nth_error l (List.length l - S i).
Proof.
  intros H. rewrite (nth_error_nth' (rev l) NNone) by (rewrite rev_length; exact H).
  rewrite (nth_error_nth' l NNone) by lia. f_equal. apply rev_nth. exact H.
Qed.
Lemma subscript_element l z v : element l z v -> subscript l z = eret v.
Proof.
  intros H. unfold subscript. destruct H as [i v -> Hv|i v -> Hv|Hb].
  - assert (Hi : (i < List.length l)%nat) by (apply nth_error_Some; congruence).
    replace (Z.of_nat i <? Z.of_nat (List.length l))%Z with true by lia.
    replace (Z.of_nat i <? 0)%Z with false by lia. replace (Z.of_nat i <? 0)%Z with false by lia.
    rewrite Nat2Z.id, Hv. reflexivity.
  - assert (Hi : (i < List.length l)%nat) by (rewrite <- rev_length; apply nth_error_Some; congruence).
    replace (- Z.of_nat (S i) <? Z.of_nat (List.length l))%Z with true by lia.
    replace (- Z.of_nat (S i) <? 0)%Z with true by lia.
    replace (Z.of_nat (List.length l) + - Z.of_nat (S i) <? 0)%Z with false by lia.
    replace (Z.to_nat (Z.of_nat (List.length l) + - Z.of_nat (S i))) with (List.length l - S i)%nat by lia.
    rewrite <- rev_nth, Hv by exact Hi. reflexivity.
  - replace (z <? Z.of_nat (List.length l))%Z with false by lia. reflexivity.
Qed.
Lemma element_exists l z : (- Z.of_nat (List.length l) <= z)%Z -> exists v, element l z v.
Proof.
  intros H. destruct (Z_lt_le_dec z (Z.of_nat (List.length l))) as [Hb|Hb]; [|exists NNone; apply EL_beyond, Hb].
  destruct (Z_lt_le_dec z 0) as [Hn|Hn].
  - destruct (nth_error (rev l) (Z.to_nat (- z - 1))) as [v|] eqn:Ev.
    + exists v. eapply EL_from_end; [|exact Ev]. lia.
    + apply nth_error_None in Ev. rewrite rev_length in Ev. lia.
  - destruct (nth_error l (Z.to_nat z)) as [v|] eqn:Ev.
    + exists v. eapply EL_from_start; [|exact Ev]. lia.
    + apply nth_error_None in Ev. lia.
Qed.
Lemma number_applied fn args file pos e s z e1 s1 vs e2 s2 l :
  evs fn e s (NInt z) e1 s1 -> evs (NList args) e1 s1 (NList vs) e2 s2 ->
  is_term (NList vs) = true -> indexed vs l -> forall r,
  fin (NApply fn args [] file pos) e s r <-> gives_r (fun _ => subscript l z) e2 s2 r.
Proof.
  intros Hf Ha Ht Hi r. rewrite (apply_fin ec parse fn args [] file pos e s _ e1 s1 _ e2 s2 _ Hf Ha).
  unfold apply_rest. cbn [as_closure named_unexpected]. unfold apply_number.
  destruct Hi as [a l Hl|a Hl|a b l]; rewrite Ht; rewrite ?Hl; reflexivity.
Qed.
Lemma subscript_selects fn args file pos e s z e1 s1 vs e2 s2 l v :
  evs fn e s (NInt z) e1 s1 -> evs (NList args) e1 s1 (NList vs) e2 s2 ->
  is_term (NList vs) = true -> indexed vs l -> element l z v ->
  evs (NApply fn args [] file pos) e s v e2 s2.
Proof.
  intros Hf Ha Ht Hi He. apply evals_fin. eapply number_applied; try eassumption.
  rewrite (subscript_element _ _ _ He). apply gives_ret. reflexivity.
Qed.
Lemma subscript_too_negative fn args file pos e s z e1 s1 vs e2 s2 l :
  evs fn e s (NInt z) e1 s1 -> evs (NList args) e1 s1 (NList vs) e2 s2 ->
  is_term (NList vs) = true -> indexed vs l -> (z < - Z.of_nat (List.length l))%Z ->
  fin (NApply fn args [] file pos) e s (Err (Exn IndexError "list index out of range")).
Proof.
  intros Hf Ha Ht Hi Hz. eapply number_applied; try eassumption. split; [discriminate|]. exists O.
  unfold subscript. replace (z <? Z.of_nat (List.length l))%Z with true by lia.
  replace (z <? 0)%Z with true by lia. replace (Z.of_nat (List.length l) + z <? 0)%Z with true by lia. reflexivity.
Qed.

(** ** emit *)
Lemma lookup_split e k v : lookup e k = Some v -> exists inner f outer, innermost e inner f outer k /\ gives f k v.
Proof.
  induction e as [|f e IH]; cbn [lookup]; [discriminate|]. destruct (dict_get k f) as [w|] eqn:Ed.
  - intros [= ->]. exists [], f, e. split; [|apply dict_get_gives, Ed]. split; [reflexivity|]. split; [constructor|].
    apply dict_mem_names. unfold dict_mem. rewrite Ed. reflexivity.
  - intros H. destruct (IH H) as (inner & g & outer & (-> & Hi & Hg) & Hv).
    exists (f :: inner), g, outer. split; [|exact Hv]. split; [reflexivity|]. split; [|exact Hg].
    constructor; [apply dict_get_none, Ed|exact Hi].
Qed.
Lemma innermost_unique (e inner1 inner2 : env) f1 f2 outer1 outer2 k :
  innermost e inner1 f1 outer1 k -> innermost e inner2 f2 outer2 k ->
  inner1 = inner2 /\ f1 = f2 /\ outer1 = outer2.
Proof.
  intros (He1 & Hi1 & Hf1) (He2 & Hi2 & Hf2). subst e. revert inner2 Hi2 He2.
  induction Hi1 as [|g l Hg Hl IH]; intros inner2 Hi2 He2.
  - destruct Hi2 as [|g2 l2 Hg2 Hl2]; cbn [app] in He2; injection He2 as -> ->; [auto|contradiction].
  - destruct Hi2 as [|g2 l2 Hg2 Hl2]; cbn [app] in He2.
    + injection He2 as -> _. contradiction.
    + injection He2 as -> He2. destruct (IH _ Hl2 He2) as (-> & -> & ->). auto.
Qed.
Lemma same_but_unique k (v : node) f f1 f2 : same_but k v f f1 -> same_but k v f f2 -> f1 = f2.
Proof.
  intros (b1 & o1 & a1 & He1 & Hn1 & ->) (b2 & o2 & a2 & He2 & Hn2 & ->). subst f.
  revert b2 Hn2 He2. induction b1 as [|[k1 v1] b1 IH]; intros [|[k2 v2] b2] Hn2 He2; cbn [app] in He2.
  - injection He2 as -> ->. reflexivity.
  - injection He2 as -> -> _. contradiction Hn2. left. reflexivity.
  - injection He2 as -> _ _. contradiction Hn1. left. reflexivity.
  - injection He2 as -> -> He2. cbn [app]. f_equal. apply IH; [| |exact He2].
    + intros H. apply Hn1. right. exact H.
    + intros H. apply Hn2. right. exact H.
Qed.
Lemma env_update k v e old : lookup e k = Some old -> env_same_but k v e (update_variable k v e).
Proof.
  intros H. destruct (lookup_split _ _ _ H) as (inner & f & outer & Hi & _).
  destruct (update_innermost e inner f outer k v Hi) as (f' & He & Hs). exists inner, f, f', outer. auto.
Qed.
Lemma env_update_unique k v e e' : env_same_but k v e e' -> e' = update_variable k v e.
Proof.
  intros (inner & f & f' & outer & Hi & Hs & ->).
  destruct (update_innermost e inner f outer k v Hi) as (f2 & He & Hs2). rewrite He.
  rewrite (same_but_unique _ _ _ _ _ Hs Hs2). reflexivity.
Qed.
Lemma dict_set_set {A} k (v w : A) f : dict_set k w (dict_set k v f) = dict_set k w f.
Proof.
  induction f as [|[k' v'] f IH]; cbn [dict_set]; [rewrite teqb_refl; reflexivity|].
  destruct (teqb k k') eqn:Et; cbn [dict_set]; rewrite Et; [reflexivity|]. rewrite IH. reflexivity.
Qed.
Lemma dict_mem_set {A} k (v : A) f : dict_mem k f = true -> dict_mem k (dict_set k v f) = true.
Proof.
  unfold dict_mem. induction f as [|[k' v'] f IH]; cbn [dict_set dict_get]; [discriminate|].
  destruct (teqb k k') eqn:Et; cbn [dict_get]; rewrite Et; auto.
Qed.
Lemma update_twice k v w e : update_variable k w (update_variable k v e) = update_variable k w e.
Proof.
  induction e as [|f e IH]; cbn [update_variable]; [reflexivity|].
  destruct (dict_mem k f) eqn:Em; cbn [update_variable].
  - rewrite (dict_mem_set k v f Em), dict_set_set. reflexivity.
  - rewrite Em, IH. reflexivity.
Qed.
Lemma lookup_update k v e old : lookup e k = Some old -> lookup (update_variable k v e) k = Some v.
Proof.
  induction e as [|f e IH]; cbn [update_variable lookup]; [discriminate|].
  unfold dict_mem. destruct (dict_get k f) as [w|] eqn:Ed; intros H; cbn [lookup].
  - assert (Hg : dict_get k (dict_set k v f) = Some v); [|rewrite Hg; reflexivity].
    clear -Ed. induction f as [|[k' v'] f IH]; cbn [dict_set dict_get] in *; [discriminate|].
    destruct (teqb k k') eqn:Et; cbn [dict_get]; rewrite Et; auto.
  - rewrite Ed. auto.
Qed.
Lemma dict_set_id {A} k (v : A) f : dict_get k f = Some v -> dict_set k v f = f.
Proof.
  induction f as [|[k' v'] f IH]; cbn [dict_set dict_get]; [discriminate|].
  destruct (teqb k k'); [intros [= ->]; reflexivity|]. intros H. f_equal. auto.
Qed.
Lemma update_id k v e : lookup e k = Some v -> update_variable k v e = e.
Proof.
  induction e as [|f e IH]; cbn [update_variable lookup]; [discriminate|].
  unfold dict_mem. destruct (dict_get k f) as [w|] eqn:Ed; intros H.
  - injection H as ->. rewrite dict_set_id by exact Ed. reflexivity.
  - f_equal. auto.
Qed.
Definition emit_step (v : node) : node * node :=
  match v with
  | NList (x :: l) => (x, NList l)
  | NT (x :: l) i => (x, NT l i)
  | NList [] | NT [] _ => (NNone, v)
  | _ => (v, v)
  end.
Lemma emit_once reg a e s v : lookup e (s_txt a) = Some v -> v <> NBound ->
  evs (NEmit reg a NNone) e s (fst (emit_step v)) (update_variable (s_txt a) (snd (emit_step v)) e) s.
Proof.
  intros Hl Hb. exists 1%nat. cbn [yueval eval_body]. unfold eval_emit, ebind, get_env. rewrite Hl.
  destruct v; try congruence; try reflexivity; destruct l; reflexivity.
Qed.
Lemma emit_head reg a e s x l e' : lookup e (s_txt a) = Some (NList (x :: l)) -> env_same_but (s_txt a) (NList l) e e' ->
  evs (NEmit reg a NNone) e s x e' s.
Proof.
  intros Hl He. apply env_update_unique in He. subst e'. apply (emit_once reg a e s _ Hl). discriminate.
Qed.
Lemma emit_exhausted reg a e s : lookup e (s_txt a) = Some (NList []) -> evs (NEmit reg a NNone) e s NNone e s.
Proof.
  intros Hl. pose proof (emit_once reg a e s _ Hl ltac:(discriminate)) as H. cbn [emit_step fst snd] in H.
  rewrite (update_id _ _ _ Hl) in H. exact H.
Qed.
Lemma contributes_one v : one_element v -> contributes v [v] /\ forall s, noted v s = s.
Proof.
  intros H. split; [|destruct v; try reflexivity; contradiction H].
  apply C_value. destruct v; try exact I; contradiction H.
Qed.
Lemma emit_many reg a n : forall l e s e', Forall one_element l ->
  lookup e (s_txt a) = Some (NList l) -> env_same_but (s_txt a) (NList (skipn n l)) e e' ->
  evs (NList (repeat (NEmit reg a NNone) n)) e s (NList (firstn n l)) e' s.
Proof.
  intros l e s e' Hl Hlk He. apply env_update_unique in He. subst e'. apply list_spec. exists (firstn n l). split; [reflexivity|].
  revert l e Hl Hlk. induction n as [|n IH]; intros l e Hl Hlk; cbn [repeat firstn skipn].
  - rewrite (update_id _ _ _ Hlk). constructor.
  - destruct l as [|x l].
    + rewrite (update_id _ _ _ Hlk).
      change (@nil node) with (@nil node ++ []). eapply LE_cons; [apply emit_exhausted, Hlk|constructor|].
      cbn [noted]. specialize (IH [] e Hl Hlk). rewrite firstn_nil, skipn_nil, (update_id _ _ _ Hlk) in IH. exact IH.
    + inversion Hl as [|? ? Hx Hl']; subst. destruct (contributes_one x Hx) as [Hc Hn].
      change (x :: firstn n l) with ([x] ++ firstn n l).
      eapply LE_cons; [apply (emit_once reg a e s _ Hlk); discriminate|exact Hc|]. cbn [emit_step fst snd].
      rewrite Hn. rewrite <- (update_twice (s_txt a) (NList l) (NList (skipn n l)) e).
      apply IH; [exact Hl'|]. eapply lookup_update, Hlk.
Qed.
Lemma emit_with reg a f e s x l e1 w e2 s2 e3 :
  lookup e (s_txt a) = Some (NList (x :: l)) -> function_expr f ->
  env_same_but (s_txt a) (NList l) e e1 ->
  evs (NApply f [NList l] [] None 0) e1 s w e2 s2 ->
  env_same_but (s_txt a) w e2 e3 -> evs (NEmit reg a f) e s x e3 s2.
Proof.
  intros Hl Hf H1 [n Hn] H3. apply env_update_unique in H1. apply env_update_unique in H3. subst e1 e3.
  exists (S n). cbn [yueval eval_body]. unfold eval_emit. unfold ebind at 1. unfold get_env. rewrite Hl.
  unfold ebind at 1. unfold mod_env at 1.
  assert (Ht : truthy f = true) by (destruct f; try contradiction Hf; reflexivity).
  rewrite Ht. unfold ebind at 1. rewrite Hn. reflexivity.
Qed.
Lemma emit_undefined reg a f e s : unknown e (s_txt a) ->
  fin (NEmit reg a f) e s (Err (Exn TypeError "yueval: undefined variable")).
Proof.
  intros H. apply lookup_unknown in H. split; [discriminate|]. exists 1%nat.
  cbn [yueval eval_body]. unfold eval_emit, ebind, get_env. rewrite H. reflexivity.
Qed.

(** ** Names of special functions; passages *)
Lemma special_name a e s : unknown e (s_txt a) -> e_builtin ec (y_script s) (s_txt a) = None ->
  is_special (s_txt a) = true -> evs (NVar (RList []) a) e s (NSpecial a) e s.
Proof.
  intros Hu Hb Hs. apply lookup_unknown in Hu. exists 1%nat. cbn [yueval eval_body].
  unfold eval_var, find_builtin, ebind, get_env, lift_m, bind, get_st, ret. rewrite Hu, Hb, Hs. reflexivity.
Qed.
Lemma builtin_name a e s b : unknown e (s_txt a) -> e_builtin ec (y_script s) (s_txt a) = Some b ->
  evs (NVar (RList []) a) e s (NBuiltin a) e s.
Proof.
  intros Hu Hb. apply lookup_unknown in Hu. exists 1%nat. cbn [yueval eval_body].
  unfold eval_var, find_builtin, ebind, get_env, lift_m, bind, get_st, ret. rewrite Hu, Hb. reflexivity.
Qed.
Lemma passage_spec fn args file pos e s a e1 s1 v l e2 s2 p :
  evs fn e s (NSpecial a) e1 s1 -> s_txt a = lit "__PASSAGE__" ->
  evs (NList args) e1 s1 (NList [v]) e2 s2 -> list_of v = Some l -> e_passage ec = Z.of_nat p ->
  evs (NApply fn args [] file pos) e s (nth p l NNone) e2 (set_repeat (Nat.ltb (S p) (List.length l)) s2).
Proof.
  intros Hf Ha Hv Hl Hp. apply evals_fin.
  rewrite (apply_fin ec parse fn args [] file pos e s _ e1 s1 _ e2 s2 _ Hf Hv).
  unfold apply_rest. cbn [as_closure named_unexpected]. unfold apply_special. rewrite Ha.
  change (teqb (lit "__PASSAGE__") (lit "lazy")) with false.
  change (teqb (lit "__PASSAGE__") (lit "repr")) with false.
  change (teqb (lit "__PASSAGE__") (lit "reduce")) with false.
  change (teqb (lit "__PASSAGE__") (lit "isatom")) with false.
  change (teqb (lit "__PASSAGE__") (lit "__PASSAGE__")) with true. cbv zeta. rewrite Hl, Hp.
  split; [discriminate|]. exists O. unfold ebind, lift_m, modify.
  replace (Z.of_nat p <? Z.of_nat (List.length l) - 1)%Z with (Nat.ltb (S p) (List.length l)) by lia.
  destruct (Z.of_nat p <=? Z.of_nat (List.length l) - 1)%Z eqn:Ep.
  - unfold norm_index. replace (Z.of_nat p <? 0)%Z with false by lia. rewrite Nat2Z.id, Nat.min_l by lia.
    rewrite (nth_error_nth' l NNone) by lia. reflexivity.
  - rewrite nth_overflow by lia. reflexivity.
Qed.
End Facts.
