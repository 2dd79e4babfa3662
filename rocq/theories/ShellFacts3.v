(** Passes, cache, settings, interactive loop (proofs only). *)
From Coq Require Import List NArith ZArith Bool Lia.
From Coq Require Import ZifyBool ZifyNat ZifyN.
From Verif Require Import PyStr Ast Lex Shell PyStrFacts ShellSpec ShellFacts2 FinalSpec FinalFacts EnvFacts.
Import ListNotations.
Open Scope N_scope.

(** ** C37 *)
Lemma pass_loop_passes {W} (run : nat -> W -> outcome * W) n : forall k w ok w',
  pass_loop n run k w = Some (ok, w') <-> exists m, (m <= n)%nat /\ passes run k w ok m w'.
Proof.
  induction n as [|n IH]; intros k w ok w'; cbn [pass_loop].
  - split; [discriminate|]. intros (m & Hm & H). inversion H; subst; lia.
  - destruct (run k w) as [o w1] eqn:Er. split.
    + destruct (o_ok o) eqn:Eo; cbn [negb].
      * destruct (o_repeat o) eqn:Ep; cbn [negb].
        -- intros H. apply IH in H as (m & Hm & H). exists (S m). split; [lia|]. eapply pa_more; eauto.
        -- intros [= <- <-]. exists 1%nat. split; [lia|]. eapply pa_last; eauto.
      * intros [= <- <-]. exists 1%nat. split; [lia|]. eapply pa_fail; eauto.
    + intros (m & Hm & H). inversion H as [? ? o' ? Hr Ho|? ? o' ? Hr Ho Hp|? ? o' w2 ? m' ? Hr Ho Hp Hrest]; subst;
        rewrite Er in Hr; injection Hr as <- <-; rewrite Ho; cbn [negb]; try reflexivity;
        rewrite Hp; cbn [negb]; [reflexivity|].
      apply IH. exists m'. split; [lia|exact Hrest].
Qed.
Lemma passes_list {W} (run : nat -> W -> outcome * W) n : forall d k w,
  n = (k + d)%nat -> (0 < d)%nat ->
  (forall j w, (j < n)%nat -> o_ok (fst (run j w)) = true /\ o_repeat (fst (run j w)) = (S j <? n)%nat) ->
  exists w', passes run k w true d w'.
Proof.
  induction d as [|d IH]; intros k w Hn Hd H; [lia|].
  destruct (run k w) as [o w1] eqn:Er. destruct (H k w ltac:(lia)) as [Ho Hp]. rewrite Er in Ho, Hp. cbn [fst] in Ho, Hp.
  destruct d as [|d].
  - exists w1. eapply pa_last; [exact Er|exact Ho|]. rewrite Hp. apply Nat.ltb_ge. lia.
  - destruct (IH (S k) w1) as [w' Hw']; [lia|lia|exact H|].
    exists w'. eapply pa_more; [exact Er|exact Ho| |exact Hw']. rewrite Hp. apply Nat.ltb_lt. lia.
Qed.
Lemma passes_fun {W} (run : nat -> W -> outcome * W) k w ok1 n1 w1 ok2 n2 w2 :
  passes run k w ok1 n1 w1 -> passes run k w ok2 n2 w2 -> ok1 = ok2 /\ n1 = n2 /\ w1 = w2.
Proof.
  intros H; revert ok2 n2 w2. induction H as [k w o w' Hr Ho|k w o w' Hr Ho Hp|k w o w1 ok n w' Hr Ho Hp H IH];
    intros ok2 n2 w2 H2; inversion H2 as [? ? o2 ? Hr2 Ho2|? ? o2 ? Hr2 Ho2 Hp2|? ? o2 w3 ? m2 ? Hr2 Ho2 Hp2 H3]; subst;
    rewrite Hr in Hr2; injection Hr2 as <- <-; try congruence; auto.
  destruct (IH _ _ _ H3) as (-> & -> & ->). auto.
Qed.

(** ** C36 *)
Lemma file_loop_all {W} (run : text -> nat -> W -> outcome * W) n files : forall failed w failed' w',
  file_loop n run files failed w = Some (failed', w') -> all_files run files w (failed' - failed) w'.
Proof.
  induction files as [|fn files IH]; intros failed w failed' w'; cbn [file_loop].
  - intros [= <- <-]. rewrite Z.sub_diag. constructor.
  - destruct (pass_loop n (run fn) 0 w) as [[ok w1]|] eqn:E; [|discriminate]. intros H.
    apply pass_loop_passes in E as (m & _ & Hp).
    apply IH in H.
    replace (failed' - failed)%Z with
      (if ok then (failed' - (if ok then failed else failed + 1)) else (failed' - (if ok then failed else failed + 1)) + 1)%Z
      by (destruct ok; lia).
    eapply af_cons; eauto.
Qed.
Lemma all_files_nonneg {W} (run : text -> nat -> W -> outcome * W) files w bad w' :
  all_files run files w bad w' -> (0 <= bad <= Z.of_nat (length files))%Z.
Proof. induction 1 as [|fn files w ok n w1 bad w' Hp H IH]; cbn [length]; [lia|destruct ok; lia]. Qed.
Lemma status_zero failed : script_status failed = 0%Z <-> (failed mod 64 = 0)%Z.
Proof.
  unfold script_status, exit_status, cli_value. rewrite Z.shiftl_mul_pow2 by lia. change (2 ^ 2)%Z with 4%Z.
  replace 256%Z with (64 * 4)%Z by reflexivity. rewrite Z.mul_mod_distr_r by lia. lia.
Qed.
Lemma status_small {W} (run : text -> nat -> W -> outcome * W) n files w failed w' :
  (length files < 64)%nat -> file_loop n run files 0 w = Some (failed, w') ->
  (script_status failed = 0%Z <-> all_files run files w 0 w').
Proof.
  intros Hl H. apply file_loop_all in H. rewrite Z.sub_0_r in H.
  assert (Hb := all_files_nonneg _ _ _ _ _ H). rewrite status_zero, Z.mod_small by lia. split.
  - intros ->. exact H.
  - intros H0. clear -H H0. revert H0.
    assert (G : forall b1 w1, all_files run files w b1 w1 -> forall b2 w2, all_files run files w b2 w2 -> b1 = b2 /\ w1 = w2).
    { clear. induction 1 as [|fn files w ok n w1 bad w' Hp H IH]; intros b2 w2 H2; inversion H2; subst; auto.
      match goal with Hq : passes (run fn) 0 w _ _ _ |- _ => destruct (passes_fun _ _ _ _ _ _ _ _ _ Hp Hq) as (-> & -> & ->) end.
      match goal with Hq : all_files run files _ _ w2 |- _ => destruct (IH _ _ Hq) as (-> & ->) end. auto. }
    intros H0. apply (G _ _ H _ _ H0).
Qed.

(** ** C45 *)
Lemma strip_command c l : (exists h, c = h :: tl c /\ py_isspace h = false) -> rstrip c = c ->
  strip l = c <-> is_command c l.
Proof.
  intros (h & Ec & Hh) Hc. split.
  - intros E. unfold strip in E. destruct (lstrip_split l) as (a & Ea & Ha).
    destruct (rstrip_trimmed (lstrip l)) as (b & Eb & Hb & _). exists a, b.
    split; [rewrite <- E, <- Eb; exact Ea|split; [exact Ha|exact Hb]].
  - intros (a & b & -> & Ha & Hb). unfold strip.
    assert (E1 : lstrip (a ++ c ++ b) = c ++ b).
    { clear Hb. induction Ha as [|x a Hx Ha IH]; cbn [app lstrip].
      - rewrite Ec. cbn [app lstrip]. rewrite Hh. reflexivity.
      - rewrite Hx. exact IH. }
    rewrite E1. clear E1 Ha a.
    rewrite rstrip_app_blank by exact Hb. exact Hc.
Qed.
Lemma exit_command l : strip l = lit "exit" <-> is_command (lit "exit") l.
Proof. apply strip_command; [|reflexivity]. exists 101. split; reflexivity. Qed.
Lemma test_command l : strip l = lit "test" <-> is_command (lit "test") l.
Proof. apply strip_command; [|reflexivity]. exists 116. split; reflexivity. Qed.
Lemma not_both l : is_command (lit "test") l -> ~ is_command (lit "exit") l.
Proof. rewrite <- test_command, <- exit_command. intros -> H. discriminate. Qed.

Lemma repl_plain ls : Forall plain_line ls -> forall acc more,
  repl acc (ls ++ more) = repl (acc ++ block_text ls) more.
Proof.
  induction 1 as [|l ls [H1 H2] H IH]; intros acc more.
  - cbn. rewrite app_nil_r. reflexivity.
  - cbn [app repl]. rewrite <- exit_command in H1. rewrite <- test_command in H2.
    unfold repl_exit, repl_test. rewrite (proj2 (teqb_neq _ _) H1), (proj2 (teqb_neq _ _) H2).
    rewrite IH. f_equal. unfold block_text. cbn [map concat]. rewrite <- !app_assoc. reflexivity.
Qed.
Lemma repl_session blocks rest ending : session_ok blocks rest ending ->
  repl [] (typed blocks rest ending) = map (fun b => block_text (fst b)) blocks.
Proof.
  intros (Hb & Hr & He). unfold typed. induction Hb as [|[ls cmd] blocks [H1 H2] Hb IH]; cbn [map concat fst snd] in *.
  - cbn [app]. rewrite repl_plain by exact Hr. destruct He as [->|(x & more & -> & Hx)]; [reflexivity|].
    cbn [repl]. apply exit_command in Hx. rewrite Hx. reflexivity.
  - rewrite <- !app_assoc. cbn [app]. rewrite repl_plain by exact H1. cbn [app repl].
    apply test_command in H2. rewrite H2. cbn [teqb]. change (teqb (lit "test") repl_exit) with false.
    change (teqb (lit "test") repl_test) with true. cbn iota. f_equal. exact IH.
Qed.
Lemma strip_blank t : match strip t with [] => Forall (fun c => py_isspace c = true) t | _ => Exists (fun c => py_isspace c = false) t end.
Proof.
  assert (L : forall l, lstrip l = [] -> Forall (fun c => py_isspace c = true) l).
  { induction l as [|c l IH]; cbn [lstrip]; [constructor|]. destruct (py_isspace c) eqn:E; [|discriminate]. intros H. constructor; [exact E|apply IH, H]. }
  assert (K : forall l, Forall (fun c => py_isspace c = true) l -> lstrip l = []).
  { induction 1 as [|c l E _ IH]; cbn [lstrip]; [reflexivity|]. rewrite E. exact IH. }
  destruct (forallb py_isspace t) eqn:E.
  - rewrite forallb_forall in E. assert (F : Forall (fun c => py_isspace c = true) t) by (apply Forall_forall; exact E). unfold strip. rewrite (K _ F). exact F.
  - assert (X : Exists (fun c => py_isspace c = false) t).
    { clear -E. induction t as [|c t IH]; [discriminate|]. cbn [forallb] in E. destruct (py_isspace c) eqn:Ec; [right; apply IH; exact E|left; exact Ec]. }
    destruct (strip t) eqn:Es; [|exact X]. exfalso. unfold strip in Es.
    assert (R : forall l, rstrip l = [] -> Forall (fun c => py_isspace c = true) l).
    { induction l as [|c l IH]; cbn [rstrip]; [constructor|]. destruct (rstrip l); [|discriminate]. destruct (py_isspace c) eqn:Ec; [|discriminate]. intros _. constructor; [exact Ec|apply IH; reflexivity]. }
    apply R in Es. rewrite Forall_forall in Es.
    assert (X2 : exists c, In c (lstrip t) /\ py_isspace c = false).
    { clear -X. induction X as [c l Hc|c l X IH]; cbn [lstrip].
      - rewrite Hc. exists c. split; [left; reflexivity|exact Hc].
      - destruct (py_isspace c) eqn:E; [exact IH|]. exists c. split; [left; reflexivity|exact E]. }
    destruct X2 as (c & Hc & Ec). apply Es in Hc. congruence.
Qed.
Lemma repl_runs_session blocks rest ending : session_ok blocks rest ending ->
  without_blank (map (fun b => block_text (fst b)) blocks) (repl_runs (typed blocks rest ending)).
Proof.
  intros H. unfold repl_runs. rewrite (repl_session _ _ _ H). induction (map (fun b => block_text (fst b)) blocks) as [|t l IH]; cbn [filter]; [constructor|].
  pose proof (strip_blank t) as S. destruct (strip t); constructor; assumption.
Qed.
Lemma session_exists lines : exists blocks rest ending,
  lines = typed blocks rest ending /\ session_ok blocks rest ending.
Proof.
  induction lines as [|l lines (blocks & rest & ending & E & Hb & Hr & He)].
  - exists [], [], []. split; [reflexivity|]. split; [constructor|]. split; [constructor|left; reflexivity].
  - destruct (text_eq_dec (strip l) (lit "exit")) as [Hx|Hx].
    + exists [], [], (l :: lines). split; [reflexivity|]. split; [constructor|]. split; [constructor|].
      right. exists l, lines. split; [reflexivity|]. apply exit_command, Hx.
    + destruct (text_eq_dec (strip l) (lit "test")) as [Ht|Ht].
      * exists (([], l) :: blocks), rest, ending. split; [unfold typed; cbn; rewrite E; reflexivity|].
        split; [constructor; [split; [constructor|apply test_command, Ht]|exact Hb]|]. split; assumption.
      * assert (Hp : plain_line l) by (split; [rewrite <- exit_command|rewrite <- test_command]; assumption).
        destruct blocks as [|[ls cmd] blocks].
        -- exists [], (l :: rest), ending. split; [rewrite E; reflexivity|].
           split; [constructor|]. split; [constructor; assumption|exact He].
        -- inversion Hb as [|? ? [H1 H2] H3]; subst.
           exists ((l :: ls, cmd) :: blocks), rest, ending. split; [reflexivity|].
           split; [constructor; [split; [constructor; assumption|exact H2]|exact H3]|]. split; assumption.
Qed.

(** ** C39 *)
Lemma dict_get_set {A} k k' (v : A) d : dict_get k (dict_set k' v d) = if teqb k k' then Some v else dict_get k d.
Proof.
  induction d as [|[k2 v2] d IH]; cbn [dict_set dict_get]; [reflexivity|].
  destruct (teqb_spec k' k2) as [->|Hn]; cbn [dict_get].
  - destruct (teqb k k2); reflexivity.
  - destruct (teqb_spec k k2) as [->|Hk]; [|exact IH].
    destruct (teqb_spec k2 k') as [->|_]; [contradiction|reflexivity].
Qed.
Lemma fold_set_get k l : forall c : cdict,
  dict_get k (fold_left (fun c kv => dict_set (fst kv) (snd kv) c) l c)
  = match last_of k l with Some v => Some v | None => dict_get k c end.
Proof.
  induction l as [|[k' v] l IH]; intros c; [reflexivity|]. cbn [fold_left last_of fst snd].
  rewrite IH, dict_get_set. destruct (last_of k l); [reflexivity|]. destruct (teqb k k'); reflexivity.
Qed.
Lemma last_of_app k a b : last_of k (a ++ b) = match last_of k b with Some v => Some v | None => last_of k a end.
Proof.
  induction a as [|[k' v] a IH]; cbn [app last_of]; [destruct (last_of k b); reflexivity|].
  rewrite IH. destruct (last_of k b); reflexivity.
Qed.
Lemma last_of_get k (d : cdict) : NoDup (map fst d) -> last_of k d = dict_get k d.
Proof.
  induction d as [|[k' v] d IH]; intros Hn; [reflexivity|]. inversion Hn as [|? ? Hk Hd]; subst.
  cbn [last_of dict_get]. rewrite IH by exact Hd. destruct (teqb_spec k k') as [->|Hne].
  - rewrite (proj2 (dict_get_none d k') Hk). reflexivity.
  - destruct (dict_get k d); reflexivity.
Qed.
Lemma exec_get k o ctx : dict_get k (exec_script o ctx)
  = match last_of k (assigned o) with Some v => Some v | None => dict_get k ctx end.
Proof. destruct o as [l|]; [apply fold_set_get|reflexivity]. Qed.

Definition ctx_of (defaults : cdict) (global local : option cdict) : cdict :=
  exec_script local (exec_script global
    (dict_set (lit "pp_define") (VList []) (dict_set (lit "dependency") (VList [])
      (dict_set (lit "directory") (VList []) defaults)))).
Lemma ctx_effective defaults global local k : NoDup (map fst defaults) ->
  dict_get k (ctx_of defaults global local) = effective defaults global local k.
Proof.
  intros Hn. unfold ctx_of, effective. rewrite !exec_get, !dict_get_set, !last_of_app.
  destruct (last_of k (assigned local)); [reflexivity|]. destruct (last_of k (assigned global)); [reflexivity|].
  cbn [last_of]. rewrite last_of_get by exact Hn.
  destruct (teqb k (lit "pp_define")), (teqb k (lit "dependency")), (teqb k (lit "directory")); reflexivity.
Qed.
Lemma dict_get_filter (p : cval -> bool) k (d : cdict) : NoDup (map fst d) ->
  dict_get k (filter (fun kv => p (snd kv)) d) = match dict_get k d with
    | Some v => if p v then Some v else None | None => None end.
Proof.
  induction d as [|[k' v] d IH]; intros Hn; [reflexivity|]. inversion Hn as [|? ? Hk Hd]; subst.
  cbn [filter snd dict_get]. destruct (p v) eqn:Ep; cbn [dict_get].
  - destruct (teqb k k'); [rewrite Ep; reflexivity|apply IH, Hd].
  - rewrite IH by exact Hd. destruct (teqb_spec k k') as [->|_]; [|reflexivity].
    rewrite (proj2 (dict_get_none d k') Hk), Ep. reflexivity.
Qed.
Lemma dict_set_names {A} k (v : A) d : map fst (dict_set k v d) = if dict_mem k d then map fst d else map fst d ++ [k].
Proof.
  unfold dict_mem. induction d as [|[k' v'] d IH]; cbn [dict_set dict_get map fst]; [reflexivity|].
  destruct (teqb k k'); cbn [map fst]; [reflexivity|]. rewrite IH. destruct (dict_get k d); reflexivity.
Qed.
Lemma dict_set_nodup {A} k (v : A) d : NoDup (map fst d) -> NoDup (map fst (dict_set k v d)).
Proof.
  intros H. rewrite dict_set_names. unfold dict_mem. destruct (dict_get k d) eqn:E; [exact H|].
  apply dict_get_none in E. apply (NoDup_Add (a := k) (l := map fst d)).
  - rewrite <- (app_nil_r (map fst d)) at 1. apply Add_app.
  - split; [exact H|exact E].
Qed.
Lemma exec_nodup o ctx : NoDup (map fst ctx) -> NoDup (map fst (exec_script o ctx)).
Proof.
  destruct o as [l|]; [|auto]. cbn [exec_script]. revert ctx.
  induction l as [|[k v] l IH]; intros ctx H; [exact H|]. cbn [fold_left]. apply IH. apply dict_set_nodup, H.
Qed.
Lemma ctx_nodup defaults global local : NoDup (map fst defaults) -> NoDup (map fst (ctx_of defaults global local)).
Proof. intros H. unfold ctx_of. do 2 apply exec_nodup. do 3 apply dict_set_nodup. exact H. Qed.

Definition list_key (k : text) : bool :=
  teqb k (lit "pp_define") || teqb k (lit "dependency") || teqb k (lit "directory").
Lemma parse_get defaults global local k : NoDup (map fst defaults) ->
  dict_get k (parse_yuconfig defaults global local)
  = match effective defaults global local k with
    | Some (VList l) => if list_key k then Some (VList l) else None
    | Some v => if is_cfg_type v then Some v else None
    | None => None
    end.
Proof.
  intros Hn. unfold parse_yuconfig. fold (ctx_of defaults global local).
  rewrite <- (ctx_effective _ global local k Hn).
  assert (Hk : forall k' (c : cdict), 
     dict_get k match dict_get k' (ctx_of defaults global local) with
                | Some (VList l) => dict_set k' (VList l) c | _ => c end
     = match dict_get k' (ctx_of defaults global local) with
       | Some (VList l) => if teqb k k' then Some (VList l) else dict_get k c
       | _ => dict_get k c end).
  { intros k' c. destruct (dict_get k' (ctx_of defaults global local)) as [[]|]; try reflexivity. apply dict_get_set. }
  rewrite !Hk. rewrite dict_get_filter by (apply ctx_nodup, Hn). clear Hk.
  unfold list_key.
  destruct (teqb_spec k (lit "pp_define")) as [->|H1]; [|destruct (teqb_spec k (lit "dependency")) as [->|H2]];
    [| |destruct (teqb_spec k (lit "directory")) as [->|H3]]; cbn [orb].
  - change (teqb (lit "pp_define") (lit "dependency")) with false.
    change (teqb (lit "pp_define") (lit "directory")) with false.
    destruct (dict_get (lit "pp_define") (ctx_of defaults global local)) as [[]|];
    destruct (dict_get (lit "dependency") (ctx_of defaults global local)) as [[]|];
    destruct (dict_get (lit "directory") (ctx_of defaults global local)) as [[]|]; reflexivity.
  - change (teqb (lit "dependency") (lit "directory")) with false.
    destruct (dict_get (lit "pp_define") (ctx_of defaults global local)) as [[]|];
    destruct (dict_get (lit "dependency") (ctx_of defaults global local)) as [[]|];
    destruct (dict_get (lit "directory") (ctx_of defaults global local)) as [[]|]; reflexivity.
  - destruct (dict_get (lit "pp_define") (ctx_of defaults global local)) as [[]|];
    destruct (dict_get (lit "dependency") (ctx_of defaults global local)) as [[]|];
    destruct (dict_get (lit "directory") (ctx_of defaults global local)) as [[]|]; reflexivity.
  - destruct (dict_get (lit "pp_define") (ctx_of defaults global local)) as [[]|];
    destruct (dict_get (lit "dependency") (ctx_of defaults global local)) as [[]|];
    destruct (dict_get (lit "directory") (ctx_of defaults global local)) as [[]|];
    destruct (dict_get k (ctx_of defaults global local)) as [[]|]; reflexivity.
Qed.
Lemma configure_get cfg k d l : forall st : cdict, NoDup (map fst l) -> In (k, d) l ->
  dict_get k (fold_left (fun acc kd => dict_set (fst kd) (cfg_get cfg (fst kd) (snd kd)) acc) l st)
  = Some (cfg_get cfg k d).
Proof.
  induction l as [|[k' d'] l IH]; intros st Hn Hin; [destruct Hin|]. inversion Hn as [|? ? Hk Hl]; subst.
  cbn [fold_left fst snd]. destruct Hin as [[= -> ->]|Hin]; [|apply IH; assumption].
  assert (G : forall l st, ~ In k (map fst l) ->
    dict_get k (fold_left (fun acc kd => dict_set (fst kd) (cfg_get cfg (fst kd) (snd kd)) acc) l st) = dict_get k st).
  { clear. induction l as [|[k' d'] l IH]; intros st H; [reflexivity|]. cbn [fold_left fst snd].
    rewrite IH by (intros X; apply H; right; exact X). rewrite dict_get_set.
    rewrite (proj2 (teqb_neq k k')); [reflexivity|]. intros ->. apply H. left. reflexivity. }
  rewrite G by exact Hk. rewrite dict_get_set, teqb_refl. reflexivity.
Qed.
Lemma defaults_nodup : NoDup (map fst setting_defaults).
Proof.
  assert (H : forall l : list text, (fix nd l := match l with [] => true | x :: r => negb (existsb (teqb x) r) && nd r end) l = true -> NoDup l).
  { induction l as [|x l IH]; intros E; constructor; apply andb_true_iff in E as [E1 E2]; [|apply IH, E2].
    intros Hx. apply negb_true_iff in E1. assert (existsb (teqb x) l = true); [|congruence].
    apply existsb_exists. exists x. split; [exact Hx|apply teqb_refl]. }
  apply H. vm_compute. reflexivity.
Qed.
Lemma settings_determined defaults global local st k d :
  NoDup (map fst defaults) -> In (k, d) setting_defaults ->
  setting (process_py defaults global local st) k
  = Some (match effective defaults global local k with
          | Some (VList l) => if list_key k then VList l else d
          | Some v => if is_cfg_type v then v else d
          | None => d
          end).
Proof.
  intros Hn Hin. unfold process_py, setting, start_file, pp_configure. cbn [ps_settings].
  rewrite (configure_get _ k d _ _ defaults_nodup Hin). unfold cfg_get. rewrite parse_get by exact Hn.
  destruct (effective defaults global local k) as [v|]; [|reflexivity].
  destruct v; cbn; try reflexivity. destruct (list_key k); reflexivity.
Qed.

(** ** C38 *)
Definition bounded (now : Z) (s : fs) : Prop := forall x f, s x = Some f -> (f_mtime f <= now)%Z.
Lemma bounded_set now x v s : bounded now s -> (forall f, v = Some f -> (f_mtime f <= now)%Z) ->
  bounded now (fs_set x v s).
Proof.
  intros H Hv y f. unfold fs_set. destruct (teqb y x); [apply Hv|apply H].
Qed.
Lemma bounded_act now a s s' : bounded now s -> apply_act now a s = Some s' -> bounded now s'.
Proof.
  intros H. destruct a as [fn ro|fn|a b|fn|fn t]; cbn [apply_act].
  - destruct (s fn) as [g|] eqn:E; [|discriminate]. intros [= <-]. apply bounded_set; [exact H|].
    intros f [= <-]. cbn. apply (H _ _ E).
  - destruct (s fn); [|discriminate]. intros [= <-]. apply bounded_set; [exact H|discriminate].
  - destruct (s a) as [g|] eqn:E; [|discriminate]. intros [= <-]. apply bounded_set; [apply bounded_set; [exact H|discriminate]|].
    intros f [= <-]. apply (H _ _ E).
  - assert (G : bounded now (fs_set fn (Some (File [] now false)) s)).
    { apply bounded_set; [exact H|]. intros f [= <-]. cbn. lia. }
    destruct (s fn) as [g|]; [destruct (f_ro g); [discriminate|]|]; intros [= <-]; exact G.
  - destruct (s fn); [|discriminate]. intros [= <-]. apply bounded_set; [exact H|]. intros f0 [= <-]. cbn. lia.
Qed.
Lemma bounded_run now acts : forall fates s, bounded now s -> bounded now (fst (run_acts now acts fates s)).
Proof.
  induction acts as [|a acts IH]; intros fates s H; [exact H|]. cbn [run_acts].
  assert (P : forall k, bounded now (partial_act now a k s)).
  { intros k. destruct a; try exact H. unfold partial_act.
    destruct (apply_act now (AWrite fn (firstn k t)) s) eqn:E; [|exact H]. eapply bounded_act; eauto. }
  destruct (hd Done fates); [|apply P|apply P].
  destruct (apply_act now a s) eqn:E; [|exact H]. apply IH. eapply bounded_act; eauto.
Qed.
Lemma no_crash now acts : forall s, snd (run_acts now acts [] s) <> Crashed.
Proof.
  induction acts as [|a acts IH]; intros s; cbn; [discriminate|].
  destruct (apply_act now a s); [apply IH|discriminate].
Qed.
(** a file that is only opened and written by the calls is unchanged or new *)
Definition fresh_only (x : text) (a : act) : Prop := ~ touches a x \/ a = AOpen x \/ exists t, a = AWrite x t.
Lemma fresh_run now x acts : Forall (fresh_only x) acts -> forall fates s,
  fst (run_acts now acts fates s) x = s x
  \/ exists f, fst (run_acts now acts fates s) x = Some f /\ f_mtime f = now.
Proof.
  induction 1 as [|a acts Ha H IH]; intros fates s; [left; reflexivity|]. cbn [run_acts].
  assert (Hap : forall a s1, fresh_only x a -> apply_act now a s = Some s1 ->
     s1 x = s x \/ exists f, s1 x = Some f /\ f_mtime f = now).
  { intros b s1 [Hb|[->|[t ->]]] E.
    - left. eapply apply_keeps; eauto.
    - right. cbn [apply_act] in E. destruct (s x) as [g|]; [destruct (f_ro g); [discriminate|]|];
        injection E as <-; rewrite fs_set_eq; eexists; split; reflexivity.
    - right. cbn [apply_act] in E. destruct (s x) as [g|]; [|discriminate].
      injection E as <-. rewrite fs_set_eq. eexists; split; reflexivity. }
  assert (P : forall k, partial_act now a k s x = s x \/ exists f, partial_act now a k s x = Some f /\ f_mtime f = now).
  { intros k. destruct a as [fn ro|fn|b c|fn|fn t]; try (left; reflexivity). unfold partial_act.
    destruct (apply_act now (AWrite fn (firstn k t)) s) eqn:E; [|left; reflexivity].
    eapply Hap; [|exact E]. destruct Ha as [Ha|[Ha|[t' Ha]]]; [left; exact Ha|discriminate|].
    injection Ha as -> ->. right. right. eexists. reflexivity. }
  destruct (hd Done fates); [|apply P|apply P].
  destruct (apply_act now a s) as [s1|] eqn:E; [|left; reflexivity].
  destruct (IH (tl fates) s1) as [E1|E1]; [|right; exact E1].
  rewrite E1. eapply Hap; eauto.
Qed.
Lemma deps_older_iff s t deps : deps_older s t deps = Some true <->
  Forall (fun d => exists f, s d = Some f /\ (f_mtime f < t)%Z) deps.
Proof.
  induction deps as [|d deps IH]; cbn [deps_older]; [split; [constructor|reflexivity]|].
  split.
  - destruct (s d) as [f|] eqn:E; [|discriminate]. destruct (f_mtime f <? t)%Z eqn:El; [|discriminate].
    intros H. constructor; [exists f; split; [exact E|lia]|apply IH, H].
  - inversion 1 as [|? ? (f & Hf & Hl) Hr]; subst. rewrite Hf. rewrite (proj2 (Z.ltb_lt _ _) Hl). apply IH, Hr.
Qed.

Section Cache.
Variables (cfg : pcfg) (pp : fs -> ppres) (fn fn_o : text).
Hypothesis Hdet : determined cfg pp fn.
Hypothesis Hout : forall s, p_output (pp s) = None.
Hypothesis Hast : snd (splitext fn_o) <> lit ".ast".
Hypothesis Hbak : ~ In (fn_o ++ lit ".bak") (tracked cfg fn).

Definition good (s : fs) : Prop := forall o, s fn_o = Some o ->
  Forall (fun d => exists f, s d = Some f /\ (f_mtime f < f_mtime o)%Z) (tracked cfg fn) ->
  p_ok (pp s) = true /\ f_data o = p_plain (pp s).

Lemma good_same s s' now : bounded now s -> s' fn_o = s fn_o ->
  (forall x, In x (tracked cfg fn) -> s' x = s x \/ s' x = None \/ exists f, s' x = Some f /\ (now <= f_mtime f)%Z) ->
  good s -> good s'.
Proof.
  intros Hb Ho Hx Hg o Hs Hd. rewrite Ho in Hs.
  assert (Hsame : forall x, In x (tracked cfg fn) -> s' x = s x).
  { intros x Hin. rewrite Forall_forall in Hd. destruct (Hd x Hin) as (f & Hf & Hl).
    destruct (Hx x Hin) as [E|[E|(g & E & Hm)]]; [exact E|congruence|].
    rewrite E in Hf. injection Hf as <-. specialize (Hb _ _ Hs). lia. }
  assert (Hpp : pp s' = pp s).
  { apply Hdet. intros x Hin. rewrite (Hsame x Hin). reflexivity. }
  rewrite Hpp. apply Hg; [exact Hs|]. rewrite Forall_forall in *. intros d Hin.
  destruct (Hd d Hin) as (f & Hf & Hl). exists f. rewrite <- (Hsame d Hin). auto.
Qed.

Lemma stream_fn_ok s : p_ok (pp s) = true -> stream_fn (pp s) fn_o = fn_o.
Proof. intros H. unfold stream_fn. rewrite H, Hout. reflexivity. Qed.

Lemma good_load s t : bounded t s -> good s ->
  let s' := snd (fst (pp_stream t (g_read_only cfg) (pp s) fn_o [] s)) in bounded t s' /\ good s'.
Proof.
  intros Hb Hg. cbn zeta. unfold pp_stream.
  assert (Hb' := bounded_run t (stream_acts (g_read_only cfg) (pp s) fn_o s) [] s Hb).
  assert (Hnc := no_crash t (stream_acts (g_read_only cfg) (pp s) fn_o s) s).
  destruct (p_ok (pp s)) eqn:Hok.
  - assert (Hc := stream_completed t (g_read_only cfg) (pp s) fn_o [] s Hok). unfold pp_stream in Hc.
    rewrite (stream_fn_ok s Hok) in Hc.
    assert (Hfr : forall x, x <> fn_o -> x <> fn_o ++ e_bak -> Forall (fresh_only x) (stream_acts (g_read_only cfg) (pp s) fn_o s)).
    { intros x H1 H2. rewrite stream_ok_acts by exact Hok. rewrite (stream_fn_ok s Hok). apply Forall_app. split.
      - eapply Forall_impl; [|apply backup_keeps; eassumption]. intros a Ha. left. exact Ha.
      - unfold later_acts, save_acts. apply Forall_app. split; [repeat constructor; exact H1|].
        apply Forall_app. split; [destruct (g_read_only cfg); repeat constructor; exact H1|].
        destruct (p_json (pp s)) as [j|]; [|constructor].
        destruct (text_eq_dec x (fn_o ++ lit ".json")) as [->|Hne].
        + constructor; [right; left; reflexivity|]. constructor; [right; right; eexists; reflexivity|constructor].
        + repeat constructor; exact Hne. }
    assert (Hrun : forall x, x <> fn_o -> x <> fn_o ++ e_bak ->
       fst (run_acts t (stream_acts (g_read_only cfg) (pp s) fn_o s) [] s) x = s x
       \/ exists f, fst (run_acts t (stream_acts (g_read_only cfg) (pp s) fn_o s) [] s) x = Some f /\ f_mtime f = t).
    { intros x H1 H2. apply fresh_run, Hfr; assumption. }
    destruct (run_acts t (stream_acts (g_read_only cfg) (pp s) fn_o s) [] s) as [s' st]. cbn [fst snd] in *.
    split; [exact Hb'|].
    destruct Hc as [(f & Hf & Hd & Hm) _]; [destruct st; [left; reflexivity|right; auto|contradiction]|].
    intros o Ho Hall. rewrite Ho in Hf. injection Hf as ->.
    assert (Hsame : forall x, In x (tracked cfg fn) -> s' x = s x).
    { intros x Hin. rewrite Forall_forall in Hall. destruct (Hall x Hin) as (g & Hgx & Hl).
      destruct (Hrun x) as [E|(h & E & Hh)]; [| |exact E|].
      - intros ->. rewrite Ho in Hgx. injection Hgx as ->. lia.
      - intros ->. apply Hbak, Hin.
      - rewrite E in Hgx. injection Hgx as ->. lia. }
    assert (Hpp : pp s' = pp s).
    { apply Hdet. intros x Hin. rewrite (Hsame x Hin). reflexivity. }
    rewrite Hpp. auto.
  - assert (Ho := failed_output t (g_read_only cfg) (pp s) fn_o [] s Hok Hast).
    assert (Hrun : forall x, fst (run_acts t (stream_acts (g_read_only cfg) (pp s) fn_o s) [] s) x = s x
       \/ exists f, fst (run_acts t (stream_acts (g_read_only cfg) (pp s) fn_o s) [] s) x = Some f /\ f_mtime f = t).
    { intros x. apply fresh_run. unfold stream_acts. rewrite Hok. destruct (p_plain (pp s)) as [|c p]; [constructor|].
      unfold save_acts. destruct (text_eq_dec x (stream_fn (pp s) fn_o)) as [->|Hne].
      - constructor; [right; left; reflexivity|]. constructor; [right; right; eexists; reflexivity|constructor].
      - repeat constructor; exact Hne. }
    unfold pp_stream in Ho.
    destruct (run_acts t (stream_acts (g_read_only cfg) (pp s) fn_o s) [] s) as [s' st]. cbn [fst snd] in *.
    destruct Ho as [Ho _]. split; [exact Hb'|]. apply (good_same s s' t Hb Ho); [|exact Hg].
    intros x _. destruct (Hrun x) as [E|(f & E & Hm)]; [left; exact E|]. right. right. exists f. split; [exact E|lia].
Qed.

Lemma hit_good s o : good s -> s fn_o = Some o ->
  deps_older s (f_mtime o) (g_deps cfg ++ [fn]) = Some true ->
  p_ok (pp s) = true /\ f_data o = p_plain (pp s).
Proof. intros Hg Ho Hd. apply Hg; [exact Ho|]. apply deps_older_iff, Hd. Qed.

Lemma history_good now s : history cfg pp fn fn_o now s -> bounded now s /\ good s.
Proof.
  induction 1 as [now s Hn Hm|now s t x d ro Hle Hx H [Hb Hg]|now s t x Hle H [Hb Hg]|now s t v s' st Hle H [Hb Hg] Hp].
  - split; [exact Hm|]. intros o Ho. congruence.
  - assert (Hbt : bounded t s) by (intros y f Hy; specialize (Hb _ _ Hy); lia). split.
    + apply bounded_set; [exact Hbt|]. intros f [= <-]. cbn. lia.
    + apply (good_same s _ t Hbt); [apply fs_set_neq, not_eq_sym, Hx| |exact Hg].
      intros y _. destruct (text_eq_dec y x) as [->|Hy].
      * right. right. rewrite fs_set_eq. eexists. split; [reflexivity|cbn; lia].
      * left. apply fs_set_neq, Hy.
  - assert (Hbt : bounded t s) by (intros y f Hy; specialize (Hb _ _ Hy); lia). split.
    + apply bounded_set; [exact Hbt|discriminate].
    + destruct (text_eq_dec fn_o x) as [<-|Hx].
      * intros o Ho. rewrite fs_set_eq in Ho. discriminate.
      * apply (good_same s _ t Hbt); [apply fs_set_neq, Hx| |exact Hg].
        intros y _. destruct (text_eq_dec y x) as [->|Hy].
        -- right. left. apply fs_set_eq.
        -- left. apply fs_set_neq, Hy.
  - assert (Hbt : bounded t s) by (intros y f Hy; specialize (Hb _ _ Hy); lia).
    assert (Hl := good_load s t Hbt Hg). unfold proc_stream in Hp.
    destruct (pp_stream t (g_read_only cfg) (pp s) fn_o [] s) as [[[[ok data] nm] s1] st1]. cbn [fst snd] in Hl.
    destruct (g_force cfg); [injection Hp as _ <- _; exact Hl|].
    destruct (s fn_o) as [o|]; [|injection Hp as _ <- _; exact Hl].
    destruct (deps_older s (f_mtime o) (g_deps cfg ++ [fn])) as [[|]|];
      injection Hp as _ <- _; try exact Hl. split; assumption.
Qed.

Lemma served_fresh now s t fates data k s' st : history cfg pp fn fn_o now s ->
  proc_stream cfg pp fn fn_o t fates s = (FromCache data k, s', st) ->
  p_ok (pp s) = true /\ data = p_plain (pp s) /\ s' = s.
Proof.
  intros H Hp. destruct (history_good _ _ H) as [_ Hg]. unfold proc_stream in Hp.
  assert (Hgen : (let '(ok, d, _, s1, st1) := pp_stream t (g_read_only cfg) (pp s) fn_o fates s in
     (Generated ok d (p_shrink (pp s)), s1, st1)) <> (FromCache data k, s', st)).
  { destruct (pp_stream t (g_read_only cfg) (pp s) fn_o fates s) as [[[[? ?] ?] ?] ?]. discriminate. }
  destruct (g_force cfg); [contradiction|]. destruct (s fn_o) as [o|] eqn:Eo; [|contradiction].
  destruct (deps_older s (f_mtime o) (g_deps cfg ++ [fn])) as [[|]|] eqn:Ed; try contradiction.
  injection Hp as <- _ <- _. destruct (hit_good s o Hg Eo Ed) as [H1 H2]. auto.
Qed.
End Cache.
Lemma generated_fresh cfg pp fn fn_o t fates s ok data k s' st :
  proc_stream cfg pp fn fn_o t fates s = (Generated ok data k, s', st) ->
  ok = p_ok (pp s) /\ data = p_plain (pp s) /\ k = p_shrink (pp s).
Proof.
  unfold proc_stream, pp_stream. destruct (run_acts t (stream_acts (g_read_only cfg) (pp s) fn_o s) fates s) as [s1 st1].
  destruct (g_force cfg); [intros [= <- <- <- _ _]; auto|].
  destruct (s fn_o) as [o|]; [|intros [= <- <- <- _ _]; auto].
  destruct (deps_older s (f_mtime o) (g_deps cfg ++ [fn])) as [[|]|]; try (intros [= <- <- <- _ _]; auto).
Qed.
