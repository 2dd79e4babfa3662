(** Functions that call functions: definitions in force, and the value of an expression (proofs only). *)
From Coq Require Import List NArith ZArith Bool String Lia ZifyBool ZifyNat ZifyN.
From Verif Require Import PyStr Ast Lex Parse Final Eval PyStrFacts EnvSpec EnvFacts TrimSpec TrimFacts EvalSpec EvalMono EvalKeep EvalPure EvalFacts EvalFacts2 EvalFacts3 EvalFacts4 ApplyFacts ApplyFacts2 ApplyFacts3 ApplyFacts4 CoreSpec CoreFacts CoreFacts2 CoreCases UseSpec UseFacts UseFacts2 UseFacts3.
Import ListNotations.
Open Scope list_scope.
Lemma clean_none E : clean (fun _ => False) E.
Proof. induction E using iexp_nest; cbn [clean]; try tauto; apply cleanl_spec; assumption. Qed.

Lemma lookup_cons n c (f : frame) e m : lookup (((n, c) :: f) :: e) m = if teqb m n then Some c else lookup (f :: e) m.
Proof. cbn [lookup dict_get]. destruct (teqb m n) eqn:E; reflexivity. Qed.
Lemma lookup_nil (e : env) m : lookup ([] :: e) m = lookup e m.
Proof. reflexivity. Qed.
Lemma lookup_known e n v : lookup e n = Some v -> known e n v.
Proof. apply lookup_split. Qed.

Section Force.
Variables (ec : ectx) (parse : text -> M (list node)).
Notation evs := (evals ec parse).
Variable shift : text -> text -> text -> Prop.
Hypothesis Hshift : forall i u w, shift i u w -> w = trim (e_trim ec) i u.
Hypothesis Hbr : e_browse ec = false.
Variables free parameter : text -> Prop.
Notation um := (umeans ec parse shift free parameter).
Notation imean := (imean ec parse shift).
Notation ires := (ires ec parse shift).
(** the environments inside calls made at [e] *)
Definition within (e F : env) : Prop := exists frs, F = frs ++ e /\ Forall (fun fr : frame => forall k, dict_mem k fr = true -> parameter k) frs.
Lemma within_frame e F fr : within e F -> (forall k, dict_mem k fr = true -> parameter k) -> within e (fr :: F).
Proof. intros (frs & -> & K) H. exists (fr :: frs). split; [reflexivity|]. constructor; assumption. Qed.
Lemma within_lookup e F n : within e F -> ~ parameter n -> lookup F n = lookup e n.
Proof.
  intros (frs & -> & K) Hn. induction K as [|fr frs Hf _ IH]; [reflexivity|]. cbn [app lookup]. destruct (dict_get n fr) eqn:E; [|exact IH].
  exfalso. apply Hn, Hf. unfold dict_mem. rewrite E. reflexivity.
Qed.
Lemma within_self e : within e e.
Proof. exists []. split; [reflexivity|constructor]. Qed.
Lemma force_free fs e : in_force ec parse free parameter fs e -> forall n, free n -> unknown e n /\ ~ parameter n.
Proof. induction 1; auto. Qed.
Definition okg (e : env) := okfs ec parse shift free parameter (within e).
Lemma known_ok e gs : (forall n, free n -> unknown e n /\ ~ parameter n) -> Forall (fun b => data (snd b) /\ known e (fst b) (snd b)) gs -> ok_known free parameter (within e) gs.
Proof.
  intros Hf Hg n v G Hp. apply dict_get_gives, dict_get_in in G. rewrite Forall_forall in Hg. destruct (Hg _ G) as [Hd Hk]. cbn [fst snd] in *. apply known_lookup in Hk.
  split; [exact Hd|]. split.
  - intros Hfr. destruct (Hf n Hfr) as [Hu _]. apply lookup_unknown in Hu. congruence.
  - intros F HW. rewrite (within_lookup e F n HW Hp). exact Hk.
Qed.
Lemma lval_holds ps vs : List.length ps = List.length vs -> Forall data vs -> holds ec parse shift (map (fun b => (fst b, LVal (snd b))) (combine ps vs)) (combine ps vs).
Proof.
  revert vs. induction ps as [|p ps IH]; intros [|v vs] Hl Hd; try discriminate Hl; cbn [combine map]; constructor.
  - inversion Hd; subst. cbn [fst snd lmean]. auto.
  - apply IH; [injection Hl; auto|inversion Hd; assumption].
Qed.
Lemma lval_get ps vs k lf : dict_get k (map (fun b : text * node => (fst b, LVal (snd b))) (combine ps vs)) = Some lf -> exists v, lf = LVal v /\ In k ps.
Proof.
  intros H. apply dict_get_in, in_map_iff in H as ([q v] & E & Hin). cbn [fst snd] in E. injection E as <- <-. exists v. split; [reflexivity|]. eapply in_combine_l, Hin.
Qed.
Lemma lval_sim sg ps vs : List.length ps = List.length vs -> holds ec parse shift sg (combine ps vs) -> ssim ec parse shift (map (fun b => (fst b, LVal (snd b))) (combine ps vs)) sg.
Proof.
  unfold holds, ssim. revert sg vs. induction ps as [|p ps IH]; intros sg [|v vs] Hl H; try discriminate Hl; cbn [combine map] in *; [inversion H; constructor|].
  inversion H as [|[q lf] ? sg' ? [E Hv] Hr]; subst. constructor; [|apply IH; [injection Hl; auto|exact Hr]]. cbn [fst snd] in *. split; [symmetry; exact E|].
  destruct lf; cbn [lmean lsim] in *; [symmetry; apply Hv|exact Hv].
Qed.
(** the definition of a function: what its body becomes *)
Lemma definition fs e0 s0 F bd dflt : okg e0 fs -> (forall n, free n -> unknown e0 n /\ ~ parameter n) ->
  Forall (fun b => data (snd b) /\ known e0 (fst b) (snd b)) (f_known F) -> declares ec parse e0 s0 bd (f_params F) dflt ->
  f_params F <> [] -> NoDup (f_params F) -> Forall parameter (f_params F) ->
  forall used vs w, um fs (f_params F ++ used) (f_known F) (combine (f_params F) vs) (f_body F) w -> List.length (f_params F) = List.length vs -> Forall data vs -> simple_choices (f_body F) ->
  exists b, evs (NLambda bd (utree (f_body F))) e0 s0 (NLClosure b (fresh_frame (f_params F)) [] dflt) e0 s0 /\
    forall sg, holds ec parse shift sg (combine (f_params F) vs) -> forall H0 : text -> Prop, (forall p, In p (f_params F) -> ~ H0 p) ->
        ires H0 true (inst ec fs (f_known F) sg (f_body F)) b.
Proof.
  intros Hok Hf Hg Hde Hne Hnd Hpa used vs w D Hl Hdv Hsc. set (ps := f_params F) in *. set (sg0 := map (fun b : text * node => (fst b, LVal (snd b))) (combine ps vs)).
  set (Wl := within e0). assert (Hfp : forall n, free n -> ~ parameter n) by (intros n Hn; apply (Hf n Hn)).
  pose proof (known_ok e0 _ Hf Hg) as Hgk.
  assert (Hs0 : holds ec parse shift sg0 (combine ps vs)) by (apply lval_holds; assumption).
  assert (Hk0 : keys_ok parameter sg0). { intros k lf K. apply lval_get in K as (v & _ & K). eapply Forall_forall; eassumption. }
  assert (Hclo : forall a lf, clo_scope sg0 a lf -> dict_get a sg0 = Some lf /\ In a ps).
  { intros a lf [K|(b & A & K & _)]; [|apply lval_get in K as (v & K & _); discriminate K]. split; [exact K|]. apply lval_get in K as (v & _ & K). exact K. }
  assert (C0 : coh ec parse shift Wl (ps ++ used) sg0).
  { split.
    - intros b lf K. apply in_or_app. left. apply (Hclo b lf K).
    - intros b lf lf0 K K0. destruct (Hclo b lf K) as [K' _]. congruence.
    - intros b A K. apply lval_get in K as (v & K & _). discriminate K. }
  set (I0 := inst ec fs (f_known F) sg0 (f_body F)).
  assert (M0 : imean I0 w) by (eapply (inst_mean ec parse shift Hshift s0 free parameter Hfp Wl); eassumption).
  destruct (inst_ok ec parse shift Hshift s0 free parameter Hfp Wl (within_frame e0) (fun G n HG Hn => eq_trans (within_lookup e0 G n HG (Hfp n Hn)) (proj2 (lookup_unknown e0 n) (proj1 (Hf n Hn))))
    fs (ps ++ used) (f_known F) (combine ps vs) (f_body F) w D Hok Hgk sg0 Hs0 Hk0 C0) as (Q1 & _ & _).
  pose proof (inst_deep ec parse shift Hshift s0 free parameter Hfp Wl fs (ps ++ used) (f_known F) (combine ps vs) (f_body F) w D Hok Hgk sg0 Hs0 Hk0) as Hdeep.
  set (HN := fun a : text => ~ In a ps).
  assert (Hfr : forall a, In a ps -> lookup (fresh_frame ps :: e0) a = Some NBound) by (intros a Ha; cbn [lookup]; rewrite (fresh_get ps a Ha); reflexivity).
  destruct (all_steps ec parse shift Hshift Hbr s0 I0 (fresh_frame ps :: e0) HN HN false true w (utree (f_body F))) as (b & B1 & B2 & _).
  - split; [auto|]. split; [left; auto|]. intros _. right. apply inst_flat, Hsc.
  - exact M0.
  - rewrite <- (inst_tree ec (callee ec fs) (f_known F) sg0 (f_body F)). apply ires_tree; [|discriminate].
    assert (Lc : forall E (H : text -> Prop), (forall a lf, deep E a lf -> ~ H a) -> clean H E).
    { clear. intros E. induction E using iexp_nest; intros P Hd; cbn [clean]; try exact Logic.I.
      - apply (Hd _ (LVal v)). split; reflexivity.
      - apply (Hd _ (LSub E)). left. split; reflexivity.
      - apply cleanl_spec. rewrite Forall_forall in *. intros E HE. apply (H E HE). intros a lf Hl. apply (Hd a lf). eapply deeps_in; eassumption.
      - split; [|split]; [apply IHE1|apply IHE2|apply IHE3]; intros a lf Hl; apply (Hd a lf); cbn [deep]; auto.
      - apply cleanl_spec. rewrite Forall_forall in *. intros E HE. apply (H E HE). intros a lf Hl. apply (Hd a lf). eapply deeps_in; eassumption.
      - apply cleanl_spec. rewrite Forall_forall in *. intros E HE. apply (H E HE). intros a lf Hl. apply (Hd a lf). eapply deeps_in; eassumption.
      - apply IHE. intros a lf Hl. apply (Hd a lf). exact Hl.
      - apply cleanl_spec. rewrite Forall_forall in *. intros E HE. apply (H E HE). intros b lf Hl. apply (Hd b lf). eapply deeps_in; eassumption.
      - apply cleanl_spec. rewrite Forall_forall in *. intros E HE. apply (H E HE). intros a lf Hl. apply (Hd a lf). eapply deeps_in; eassumption.
      - apply cleanl_spec. rewrite Forall_forall in *. intros E1 HE. apply (H E1 HE). intros a lf Hl. apply (Hd a lf). left. eapply deeps_in; eassumption. }
    apply Lc. intros a lf K Hn. apply Hn. apply (Hclo a lf), Hdeep, K.
  - apply Q1; [apply within_frame; [apply within_self|]|auto|].
    + intros k K. apply dict_mem_names in K. rewrite names_fresh in K. eapply Forall_forall; eassumption.
    + intros a lf K Hn. destruct (Hclo a lf (Hdeep a lf K)) as [_ Ha]. exists NBound. split; [apply Hfr, Ha|]. left. split; [reflexivity|exact Hn].
  - exists b. split.
    + apply evals_fin. apply (lambda_fin ec parse e0 s0 bd ps dflt _ Hde Hnd). apply evals_fin.
      pose proof (closure_step ec parse s0 e0 (utree (f_body F)) (fresh_frame ps) dflt b B1) as K.
      rewrite unassigned_opens, opens_fresh in K. destruct ps; [congruence|]. exact K.
    + intros sg Hs H0 Hd0. pose proof (holds_get) as _.
      assert (Hk : keys_ok parameter sg).
      { intros k lf K. destruct (holds_some ec parse shift sg _ k lf Hs K) as (v & G & _). apply dict_get_gives, dict_get_in, in_combine_l in G. eapply Forall_forall; eassumption. }
      assert (M1 : imean (inst ec fs (f_known F) sg (f_body F)) w) by (eapply (inst_mean ec parse shift Hshift s0 free parameter Hfp Wl); eassumption).
      eapply ires_less with (H := HN) (o := true); [|auto|].
      * intros a Ha Hin. exact (Hd0 a Hin Ha).
      * eapply (sim_res ec parse shift Hshift s0 I0); [|exact M0|exact M1|exact B2].
        apply go_sim; [apply callee_sim|]. apply lval_sim; assumption.
Qed.
Lemma force_ok fs e : in_force ec parse free parameter fs e -> okg e fs.
Proof.
  induction 1 as [e Hf|f F fs e e0 s0 bd dflt c H1 IH1 H2 IH2 Hg Hde Hc Hne Hnd Hva Hpa Hpf Hnf Hk]; [exact Logic.I|].
  split; [exact IH2|]. split; [exact Hnf|]. split; [exact Hne|]. split; [exact Hnd|]. split; [exact Hva|]. split; [exact Hpa|]. split.
  - apply known_ok; [eapply force_free; eassumption|]. eapply Forall_impl; [|exact Hg]. intros b (K1 & _ & K2). auto.
  - intros used vs w D Hl Hdv Hsc.
    destruct (definition fs e0 s0 F bd dflt IH1 (force_free _ _ H1)) with (used := used) (vs := vs) (w := w) as (b & B1 & B2); try assumption.
    + eapply Forall_impl; [|exact Hg]. intros b (K1 & K2 & _). auto.
    + exists b, dflt. split; [|exact B2]. intros E HE. rewrite (within_lookup e E f HE Hpf). apply known_lookup in Hk. rewrite Hk. f_equal.
      eapply evals_det; eassumption.
Qed.
(** what is in force stays in force where the names it rests on mean the same *)
Lemma force_agrees fs e : in_force ec parse free parameter fs e -> forall e',
  (forall n, free n \/ In n (names fs) \/ Exists (fun b => In n (names (f_known (snd b)))) fs -> lookup e' n = lookup e n) -> in_force ec parse free parameter fs e'.
Proof.
  induction 1 as [e Hf|f F fs e e0 s0 bd dflt c H1 IH1 H2 IH2 Hg Hde Hc Hne Hnd Hva Hpa Hpf Hnf Hk]; intros e' A.
  - constructor. intros n Hn. destruct (Hf n Hn) as [Hu Hp]. split; [|exact Hp]. apply lookup_unknown. rewrite (A n (or_introl Hn)). apply lookup_unknown, Hu.
  - eapply IF_function with (e0 := e0); try eassumption.
    + apply IH2. intros n [Hn|[Hn|Hn]]; apply A; [left; exact Hn|right; left; right; exact Hn|right; right; right; exact Hn].
    + rewrite Forall_forall in *. intros [n v] Hb. destruct (Hg _ Hb) as (K1 & K2 & K3). cbn [fst snd] in *. split; [exact K1|]. split; [exact K2|].
      apply lookup_known. rewrite A; [apply known_lookup, K3|]. right. right. left. cbn [snd]. apply in_map_iff. exists (n, v). auto.
    + apply lookup_known. rewrite A; [apply known_lookup, Hk|]. right. left. left. reflexivity.
Qed.
Lemma definition_value fs e0 s0 F bd dflt : in_force ec parse free parameter fs e0 ->
  Forall (fun b => data (snd b) /\ known e0 (fst b) (snd b)) (f_known F) -> declares ec parse e0 s0 bd (f_params F) dflt ->
  f_params F <> [] -> NoDup (f_params F) -> Forall parameter (f_params F) -> simple_choices (f_body F) ->
  forall vs w, um fs (f_params F) (f_known F) (combine (f_params F) vs) (f_body F) w -> List.length (f_params F) = List.length vs -> Forall data vs ->
  exists c, evs (NLambda bd (utree (f_body F))) e0 s0 c e0 s0.
Proof.
  intros HF Hg Hde Hne Hnd Hpa Hsc vs w D Hl Hdv. rewrite <- (app_nil_r (f_params F)) in D at 1.
  destruct (definition fs e0 s0 F bd dflt (force_ok _ _ HF) (force_free _ _ HF) Hg Hde Hne Hnd Hpa [] vs w D Hl Hdv Hsc) as (b & B1 & _). eauto.
Qed.
Lemma definition_counts f F fs e s0 bd dflt c : in_force ec parse free parameter fs e ->
  ~ free f -> ~ parameter f -> ~ In f (names fs) -> ~ In f (names (f_known F)) -> Forall (fun b => ~ In f (names (f_known (snd b)))) fs ->
  Forall (fun b => data (snd b) /\ known e (fst b) (snd b)) (f_known F) ->
  f_params F <> [] -> NoDup (f_params F) -> ~ In va_args (f_params F) -> Forall parameter (f_params F) ->
  let e0 := [(f, NBound)] :: e in
  declares ec parse e0 s0 bd (f_params F) dflt -> evs (NLambda bd (utree (f_body F))) e0 s0 c e0 s0 ->
  in_force ec parse free parameter ((f, F) :: fs) ([(f, c)] :: e).
Proof.
  intros HF Hfr Hpf Hnf Hnk Hnks Hg Hne Hnd Hva Hpa e0 Hde Hc.
  assert (A : forall x n, n <> f -> lookup ([(f, x)] :: e) n = lookup e n).
  { intros x n Hn. rewrite lookup_cons, lookup_nil. destruct (teqb_spec n f); [contradiction|reflexivity]. }
  assert (AF : forall x, in_force ec parse free parameter fs ([(f, x)] :: e)).
  { intros x. eapply force_agrees; [exact HF|]. intros n Hn. apply A. intros ->. destruct Hn as [Hn|[Hn|Hn]]; [contradiction|contradiction|].
    apply Exists_exists in Hn as (b & Hb & Hn). rewrite Forall_forall in Hnks. exact (Hnks b Hb Hn). }
  eapply IF_function with (e0 := e0); try eassumption; [apply AF|apply AF| |].
  - rewrite Forall_forall in *. intros [n v] Hb. destruct (Hg _ Hb) as (K1 & K2). cbn [fst snd] in *. apply known_lookup in K2.
    assert (Hn : n <> f) by (intros ->; apply Hnk, in_map_iff; exists (f, v); auto).
    split; [exact K1|]. split; apply lookup_known; [unfold e0|]; rewrite A by exact Hn; exact K2.
  - apply lookup_known. rewrite lookup_cons, teqb_refl. reflexivity.
Qed.
(** the value of an expression *)
Lemma use_value fs e gs E v s : in_force ec parse free parameter fs e -> Forall (fun b => data (snd b) /\ known e (fst b) (snd b)) gs ->
  um fs [] gs [] E v -> evs (utree E) e s v e s.
Proof.
  intros HF Hg D. pose proof (force_free _ _ HF) as Hf. pose proof (force_ok _ _ HF) as Hok.
  assert (Hfp : forall n, free n -> ~ parameter n) by (intros n Hn; apply (Hf n Hn)).
  pose proof (known_ok e _ Hf Hg) as Hgk.
  assert (Hs0 : holds ec parse shift [] []) by constructor.
  assert (Hk0 : keys_ok parameter []) by (intros k lf K; discriminate K).
  assert (Hclo : forall a lf, ~ clo_scope [] a lf) by (intros a lf [K|(b & A & K & _)]; discriminate K).
  assert (C0 : coh ec parse shift (within e) [] []).
  { split; [intros b lf K; destruct (Hclo b lf K)|intros b lf lf0 K; destruct (Hclo b lf K)|intros b A K; discriminate K]. }
  pose proof (inst_mean ec parse shift Hshift s free parameter Hfp (within e) fs [] gs [] E v D Hok Hgk [] Hs0 Hk0) as M0.
  destruct (inst_ok ec parse shift Hshift s free parameter Hfp (within e) (within_frame e) (fun G n HG Hn => eq_trans (within_lookup e G n HG (Hfp n Hn)) (proj2 (lookup_unknown e n) (proj1 (Hf n Hn))))
    fs [] gs [] E v D Hok Hgk [] Hs0 Hk0 C0) as (Q1 & Q2 & _).
  pose proof (inst_deep ec parse shift Hshift s free parameter Hfp (within e) fs [] gs [] E v D Hok Hgk [] Hs0 Hk0) as Hdeep.
  destruct (all_steps ec parse shift Hshift Hbr s (inst ec fs gs [] E) e (fun _ => False) (fun _ => False) false false v (utree E)) as (y & Y1 & _ & Y3).
  - split; [auto|]. split; [left; auto|]. discriminate.
  - exact M0.
  - rewrite <- (inst_tree ec (callee ec fs) gs [] E). apply ires_tree; [apply clean_none|discriminate].
  - apply Q1; [apply within_self|auto|]. intros a lf K. destruct (Hclo a lf (Hdeep a lf K)).
  - rewrite Y3 in Y1; [exact Y1|]. apply Q2; [apply within_self|auto|]. intros a lf K. destruct (Hclo a lf (Hdeep a lf K)).
Qed.
End Force.
