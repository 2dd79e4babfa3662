(** Macros (proofs only). *)
From Coq Require Import List NArith ZArith Bool Lia ZifyBool ZifyNat ZifyN.
From Verif Require Import PyStr Ast Lex Parse Final Eval PyStrFacts EnvSpec EnvFacts EvalSpec EvalMono EvalKeep EvalPure EvalFacts EvalFacts2 EvalFacts3 EvalFacts4 ApplyFacts ApplyFacts2 FormatSpec FormatFacts.
Import ListNotations.
Open Scope list_scope.
Open Scope N_scope.

Section Macro.
Variables (ec : ectx) (parse : text -> M (list node)).
Notation ev := (yueval ec parse).
Notation fin := (finishes ec parse).
Notation evs := (evals ec parse).
Notation ste := (steady ec parse).

Lemma inserts_ste v u : inserts v u -> ste v /\ is_term v = true /\ plain_back ec v = u.
Proof.
  intros H. destruct H; (split; [split; [exact I|]; split; [discriminate|]; intros e0 s0; exists 2%nat; reflexivity|]); split; reflexivity.
Qed.
Definition given (b : text * node) : Prop := exists u, inserts (snd b) u.
(** [eval_local] leaves the arguments alone *)
Lemma local_given f : Forall given f -> forall e s, gives_r (fun n => eval_local (ev n) f) e s (Ok (f, true, e, s)).
Proof.
  induction 1 as [|[k v] f [u Hv] _ IH]; intros e s; [apply gives_ret; reflexivity|]. cbn [snd] in Hv. cbn [eval_local].
  destruct (inserts_ste v u Hv) as ((_ & _ & He) & Ht & _).
  apply (gives_bind (fun n => ev n v) (fun n v' => ebind (eval_local (ev n) f) (fun '(f'', b) => eret ((k, v') :: f'', is_term v' && b))) e s v e s).
  - apply rises_ev.
  - intros a. apply (rises_bind (fun n => eval_local (ev n) f)); [|intros [? ?]; apply rises_const]. intros i j H. apply eval_local_mono. intros x. apply rises_ev, H.
  - apply evals_fin, He.
  - apply (gives_bind (fun n => eval_local (ev n) f) (fun _ '(f'', b) => eret ((k, v) :: f'', is_term v && b)) e s (f, true) e s).
    + intros i j H. apply eval_local_mono. intros x. apply rises_ev, H.
    + intros [? ?]. apply rises_const.
    + apply IH.
    + rewrite Ht. apply gives_ret. reflexivity.
Qed.
Lemma rises_local f : rises (fun n => eval_local (ev n) f).
Proof. intros i j H. apply eval_local_mono. intros x. apply rises_ev, H. Qed.
Lemma local_open ps f : Forall given f -> ps <> [] -> forall e s, gives_r (fun n => eval_local (ev n) (fresh_frame ps ++ f)) e s (Ok (fresh_frame ps ++ f, false, e, s)).
Proof.
  intros Hf Hps. assert (G : forall ps e s, gives_r (fun n => eval_local (ev n) (fresh_frame ps ++ f)) e s (Ok (fresh_frame ps ++ f, match ps with [] => true | _ => false end, e, s))).
  { clear ps Hps. induction ps as [|p ps IH]; intros e s; [apply local_given, Hf|]. cbn [fresh_frame map app eval_local]. fold (fresh_frame ps).
    apply (gives_bind (fun n => ev n NBound) (fun n v' => ebind (eval_local (ev n) (fresh_frame ps ++ f)) (fun '(f'', b) => eret ((p, v') :: f'', is_term v' && b))) e s NBound e s).
    - apply rises_ev.
    - intros a. apply (rises_bind (fun n => eval_local (ev n) (fresh_frame ps ++ f))); [apply rises_local|intros [? ?]; apply rises_const].
    - apply evals_fin. exists 1%nat. reflexivity.
    - apply (gives_bind (fun n => eval_local (ev n) (fresh_frame ps ++ f)) (fun _ '(f'', b) => eret ((p, NBound) :: f'', is_term NBound && b)) e s (fresh_frame ps ++ f, match ps with [] => true | _ => false end) e s).
      + apply rises_local.
      + intros [? ?]. apply rises_const.
      + apply IH.
      + apply gives_ret. reflexivity. }
  intros e s. specialize (G ps e s). destruct ps; [contradiction|exact G].
Qed.
Lemma closure_full body f decl call e s r : Forall given f ->
  fin (NMClosure body f decl call) e s r <-> fin (NEval (NRaw (expand ec f body)) decl call) e s r.
Proof.
  intros Hf. rewrite fin_body. cbn [eval_body].
  rewrite (gives_bind (fun n => eval_local (ev n) f) (fun n '(env', b) => if b then ev n (NEval (NRaw (expand ec env' body)) decl call) else eret (NMClosure body env' decl call)) e s (f, true) e s r).
  - reflexivity.
  - apply rises_local.
  - intros [f' b]. destruct b; [apply rises_ev|apply rises_const].
  - apply local_given, Hf.
Qed.
Lemma closure_open body ps f decl call e s : Forall given f -> ps <> [] ->
  evs (NMClosure body (fresh_frame ps ++ f) decl call) e s (NMClosure body (fresh_frame ps ++ f) decl call) e s.
Proof.
  intros Hf Hps. apply evals_fin. rewrite fin_body. cbn [eval_body].
  apply (gives_bind (fun n => eval_local (ev n) (fresh_frame ps ++ f)) (fun n '(env', b) => if b then ev n (NEval (NRaw (expand ec env' body)) decl call) else eret (NMClosure body env' decl call)) e s (fresh_frame ps ++ f, false) e s).
  - apply rises_local.
  - intros [f' b]. destruct b; [apply rises_ev|apply rises_const].
  - apply local_open; assumption.
  - apply gives_ret. reflexivity.
Qed.
Lemma unassigned_given f : Forall given f -> unassigned f = None.
Proof.
  induction 1 as [|[k v] f [u Hv] _ IH]; [reflexivity|]. cbn [snd] in Hv. destruct Hv; exact IH.
Qed.
Lemma frame_set_first p v ps f : NoDup (p :: ps) -> ~ In p (names f) ->
  frame_set p v (fresh_frame (p :: ps) ++ f) = fresh_frame ps ++ (f ++ [(p, v)]).
Proof.
  intros Hd Hp. unfold frame_set, frame_del. cbn [fresh_frame map app filter fst]. fold (fresh_frame ps). rewrite teqb_refl. cbn [negb].
  rewrite app_assoc. f_equal. inversion Hd as [|? ? Hn _]; subst.
  assert (K : forall g : frame, ~ In p (names g) -> filter (fun e => negb (teqb p (fst e))) g = g).
  { induction g as [|[k w] g IHg]; intros Hg; [reflexivity|]. cbn [filter fst]. destruct (teqb_spec p k) as [->|Hk].
    - contradiction Hg. left. reflexivity.
    - cbn [negb]. f_equal. apply IHg. intros Hin. apply Hg. right. exact Hin. }
  apply K. unfold names. rewrite map_app. intros Hin. apply in_app_or in Hin as [Hin|Hin]; [|contradiction].
  change (In p (names (fresh_frame ps))) in Hin. rewrite names_fresh in Hin. contradiction.
Qed.
Definition mclo (body : text) (f : frame) (d call : option source) : closure := Clo f [] [] (fun e => NMClosure body e d call).
Lemma macro_run body d file pos e s r : forall ps vs f call, NoDup ps -> ~ In va_args ps -> Forall given f ->
  Forall (fun v => exists u, inserts v u) vs -> length vs = length ps -> (forall p, In p ps -> ~ In p (names f)) ->
  gives_r (fun n => apply_closure (ev n) (mclo body (fresh_frame ps ++ f) d call) vs [] file pos) e s r <->
  fin (NEval (NRaw (expand ec (f ++ combine ps vs) body)) d (if Nat.leb (length ps) 1 then call else None)) e s r.
Proof.
  induction ps as [|p ps IH]; intros vs f call Hd Hva Hf Hv Hl Hn; destruct vs as [|v vs]; try discriminate Hl.
  - cbn [fresh_frame map app length Nat.leb combine]. rewrite app_nil_r. rewrite <- closure_full by exact Hf.
    rewrite (gives_ext _ (fun n => ev n (NMClosure body f d call))); [reflexivity|]. intros n. unfold apply_closure, mclo. cbn [cl_env cl_node].
    rewrite unassigned_given by exact Hf. reflexivity.
  - inversion Hv as [|? ? [u Hu] Hv']; subst. destruct (inserts_ste v u Hu) as ((_ & _ & He) & _ & _).
    inversion Hd as [|? ? Hp Hd']; subst. assert (Hpf : ~ In p (names f)) by (apply Hn; left; reflexivity).
    set (f' := f ++ [(p, v)]).
    assert (Hf' : Forall given f') by (apply Forall_app; split; [exact Hf|]; constructor; [exists u; exact Hu|constructor]).
    assert (Hstep : forall r, gives_r (fun n => apply_closure (ev n) (mclo body (fresh_frame (p :: ps) ++ f) d call) (v :: vs) [] file pos) e s r <->
       gives_r (fun n => match vs with [] => ev n (NMClosure body (fresh_frame ps ++ f') d call)
                                     | _ => ev n (NApply (NMClosure body (fresh_frame ps ++ f') d call) vs [] file pos) end) e s r).
    { intros r'.
      rewrite (gives_ext _ (fun n => ebind (ev n v) (fun w => match w with
          | NEmbed (NList (x :: m)) | NEmbed (NT (x :: m) _) => bind_param (ev n) (mclo body (fresh_frame (p :: ps) ++ f) d call) p x (m ++ vs) [] file pos
          | NEmbed (NList []) | NEmbed (NT [] _) => ebind (list_eval_1 (ev n) vs) (fun '(v, args') => match v with
                | None => eret (NApply (NMClosure body (fresh_frame (p :: ps) ++ f) d call) args' [] file pos)
                | Some v => bind_param (ev n) (mclo body (fresh_frame (p :: ps) ++ f) d call) p v args' [] file pos end)
          | NEmbed (NVar _ _) | NEmbed (NApply _ _ _ _ _) => eret (NApply (NMClosure body (fresh_frame (p :: ps) ++ f) d call) (v :: vs) [] file pos)
          | NEmbed x => bind_param (ev n) (mclo body (fresh_frame (p :: ps) ++ f) d call) p x vs [] file pos
          | _ => bind_param (ev n) (mclo body (fresh_frame (p :: ps) ++ f) d call) p w vs [] file pos end))).
      - rewrite (gives_bind (fun n => ev n v) (fun n w => match w with
          | NEmbed (NList (x :: m)) | NEmbed (NT (x :: m) _) => bind_param (ev n) (mclo body (fresh_frame (p :: ps) ++ f) d call) p x (m ++ vs) [] file pos
          | NEmbed (NList []) | NEmbed (NT [] _) => ebind (list_eval_1 (ev n) vs) (fun '(v, args') => match v with
                | None => eret (NApply (NMClosure body (fresh_frame (p :: ps) ++ f) d call) args' [] file pos)
                | Some v => bind_param (ev n) (mclo body (fresh_frame (p :: ps) ++ f) d call) p v args' [] file pos end)
          | NEmbed (NVar _ _) | NEmbed (NApply _ _ _ _ _) => eret (NApply (NMClosure body (fresh_frame (p :: ps) ++ f) d call) (v :: vs) [] file pos)
          | NEmbed x => bind_param (ev n) (mclo body (fresh_frame (p :: ps) ++ f) d call) p x vs [] file pos
          | _ => bind_param (ev n) (mclo body (fresh_frame (p :: ps) ++ f) d call) p w vs [] file pos end) e s v e s).
        + rewrite (gives_ext _ (fun n => bind_param (ev n) (mclo body (fresh_frame (p :: ps) ++ f) d call) p v vs [] file pos)) by (intros n; destruct Hu; reflexivity).
          apply gives_ext. intros n. unfold bind_param, mclo. cbn [cl_late cl_env cl_dflt cl_node dict_get].
          unfold ebind, eret. rewrite frame_set_first by assumption. fold f'. destruct vs as [|v2 vs]; [|reflexivity].
          destruct (unassigned (fresh_frame ps ++ f')); reflexivity.
        + apply rises_ev.
        + assert (Hb : forall x l, rises (fun n => bind_param (ev n) (mclo body (fresh_frame (p :: ps) ++ f) d call) p x l [] file pos))
            by (intros x l i j H; apply bind_param_mono; intros y; apply rises_ev, H).
          assert (Hl1 : rises (fun n => ebind (list_eval_1 (ev n) vs) (fun '(v, args') => match v with
                | None => eret (NApply (NMClosure body (fresh_frame (p :: ps) ++ f) d call) args' [] file pos)
                | Some v => bind_param (ev n) (mclo body (fresh_frame (p :: ps) ++ f) d call) p v args' [] file pos end))).
          { apply (rises_bind (fun n => list_eval_1 (ev n) vs) (fun n '(v, args') => match v with
                | None => eret (NApply (NMClosure body (fresh_frame (p :: ps) ++ f) d call) args' [] file pos)
                | Some v => bind_param (ev n) (mclo body (fresh_frame (p :: ps) ++ f) d call) p v args' [] file pos end)).
            - intros i j H. apply list_eval_1_mono. intros x. apply rises_ev, H.
            - intros [[x|] l]; [apply Hb|apply rises_const]. }
          intros w. destruct w; try apply Hb. destruct w; try apply Hb; try apply rises_const; destruct l; first [apply Hb|exact Hl1].
        + apply evals_fin, He.
      - intros n. unfold apply_closure, mclo. cbn [cl_env cl_node cl_dflt]. cbn [fresh_frame map app unassigned].
        destruct (teqb_spec p va_args) as [->|Hne]; [contradiction Hva; left; reflexivity|]. cbn [list_eval_1]. unfold ebind at 1 2 3, eret at 1.
        destruct (ev n v e s) as [[[w e1] s1]| |]; try reflexivity.
        destruct w; try reflexivity. destruct w; try reflexivity; destruct l; reflexivity. }
    rewrite Hstep. assert (Hshape : expand ec (f ++ combine (p :: ps) (v :: vs)) body = expand ec (f' ++ combine ps vs) body).
    { unfold f'. cbn [combine]. rewrite <- app_assoc. reflexivity. }
    rewrite Hshape. destruct vs as [|v2 vs].
    + destruct ps as [|p2 ps]; [|discriminate Hl]. cbn [length Nat.leb combine fresh_frame map app]. rewrite app_nil_r. rewrite <- fin_gives. apply closure_full, Hf'.
    + destruct ps as [|p2 ps]; [discriminate Hl|]. rewrite <- fin_gives.
      assert (Hst : Forall ste (v2 :: vs)) by (eapply Forall_impl; [|exact Hv']; intros x [y Hy]; apply (inserts_ste x y Hy)).
      rewrite (apply_fin ec parse _ _ [] file pos e s _ e s _ e s r (closure_open body (p2 :: ps) f' d call e s Hf' (ltac:(discriminate))) (steady_list ec parse _ Hst e s)).
      cbn [call_of]. unfold apply_rest. cbn [as_closure]. fold (mclo body (fresh_frame (p2 :: ps) ++ f') d None).
      rewrite (IH (v2 :: vs) f' None); [| | |exact Hf'| | |].
      * cbn [length Nat.leb]. destruct (length ps); reflexivity.
      * exact Hd'.
      * intros H. apply Hva. right. exact H.
      * exact Hv'.
      * cbn [length] in *. lia.
      * intros q Hq Hin. unfold f', names in Hin. rewrite map_app in Hin. apply in_app_or in Hin as [Hin|[<-|[]]].
        -- apply (Hn q); [right; exact Hq|exact Hin].
        -- contradiction.
Qed.
Lemma expand_all ps vs us : Forall2 inserts vs us -> forall s, expand ec (combine ps vs) s = replace_all (combine ps us) s.
Proof.
  intros H. revert ps. induction H as [|v u vs us Hv _ IH]; intros [|p ps] s; try reflexivity. cbn [combine expand replace_all].
  rewrite (proj2 (proj2 (inserts_ste v u Hv))). apply IH.
Qed.
Theorem macro_in_turn fn args file pos e s body ps d c0 e1 s1 vs us e2 s2 out r :
  evs fn e s (NMClosure body (fresh_frame ps) d c0) e1 s1 ->
  evs (NList args) e1 s1 (NList vs) e2 s2 -> Forall2 inserts vs us -> length vs = length ps ->
  NoDup ps -> ~ In va_args ps -> replace_all (combine ps us) body = out ->
  fin (NApply fn args [] file pos) e s r <->
  fin (NEval (NRaw out) d (if Nat.leb (length ps) 1 then call_of fn else None)) e2 s2 r.
Proof.
  intros Hf Ha Hu Hl Hd Hva Hs. rewrite (apply_fin ec parse fn args [] file pos e s _ e1 s1 _ e2 s2 r Hf Ha).
  unfold apply_rest. cbn [as_closure]. fold (mclo body (fresh_frame ps) d (call_of fn)).
  rewrite <- (app_nil_r (fresh_frame ps)). rewrite macro_run; try assumption.
  - cbn [app]. rewrite (expand_all ps vs us Hu). rewrite Hs. reflexivity.
  - constructor.
  - clear -Hu. induction Hu as [|v u vs us H _ IH]; constructor; eauto.
  - intros p _ [].
Qed.
Theorem macro_call fn args file pos e s items ps d c0 e1 s1 vs us e2 s2 out r :
  evs fn e s (NMClosure (written items) (fresh_frame ps) d c0) e1 s1 ->
  evs (NList args) e1 s1 (NList vs) e2 s2 -> Forall2 inserts vs us -> length vs = length ps ->
  NoDup ps -> ~ In va_args ps -> readable items -> Forall (fun p => ~ In 41 p) ps -> Forall loose us ->
  substituted (combine ps us) items out ->
  fin (NApply fn args [] file pos) e s r <->
  fin (NEval (NRaw out) d (if Nat.leb (length ps) 1 then call_of fn else None)) e2 s2 r.
Proof.
  intros Hf Ha Hu Hl Hd Hva Hi Hp Hlu Hs. eapply macro_in_turn; try eassumption.
  apply (replace_all_spec (combine ps us) items out); [exact Hi| |exact Hs].
  clear -Hp Hlu. revert us Hlu. induction Hp as [|p ps Hp _ IH]; intros [|u us] Hlu; cbn [combine]; try constructor.
  - inversion Hlu; subst. split; assumption.
  - inversion Hlu; subst. apply IH. assumption.
Qed.
Lemma macro_defined name pars body e s : NoDup (map s_txt pars) ->
  evs (NMacro name pars body) e s (NEnv [(s_txt name, NMClosure body (fresh_frame (map s_txt pars)) (Some name) None)]) e s.
Proof.
  intros Hd. exists 1%nat. cbn [yueval eval_body]. unfold eret. do 6 f_equal.
  assert (K : forall pars f, NoDup (map s_txt pars) -> (forall p, In p pars -> ~ In (s_txt p) (names f)) ->
    fold_left (fun f p => frame_set (s_txt p) NBound f) pars f = f ++ fresh_frame (map s_txt pars)).
  { clear. induction pars as [|p pars IH]; intros f Hd Hf; cbn [fold_left map fresh_frame]; [rewrite app_nil_r; reflexivity|].
    inversion Hd as [|? ? Hp Hd']; subst. rewrite frame_set_fresh by (apply Hf; left; reflexivity). rewrite IH.
    - rewrite <- app_assoc. reflexivity.
    - exact Hd'.
    - intros q Hq Hin. unfold names in Hin. rewrite map_app in Hin. apply in_app_or in Hin as [Hin|[E|[]]].
      + apply (Hf q); [right; exact Hq|exact Hin].
      + cbn [fst] in E. apply Hp. rewrite E. apply in_map, Hq. }
  rewrite (K pars [] Hd); [reflexivity|]. intros p _ [].
Qed.
End Macro.
