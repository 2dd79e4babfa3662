(** * The title of the output (proofs only) *)
From Coq Require Import String List NArith ZArith Bool Lia ZifyBool ZifyNat ZifyN.
From Verif Require Import PyStr PyStrFacts Ast Shell Eval Builtin Builtin2 Title TitleSpec TextSpec EnvSpec EvalSpec NameSpec NameFacts NameCases ConfSpec ConfFacts ReadFacts Pp PpCases.
Import ListNotations.
Open Scope N_scope.

Lemma no_end u : ~ In 47 u -> forall i, ~ occurs_at [42; 47] (u ++ [42]) i.
Proof.
  intros H i (a & b & E & _). assert (K : In 47 (u ++ [42])) by (rewrite E; apply in_or_app; right; right; left; reflexivity).
  apply in_app_or in K as [K|[K|[]]]; [exact (H K)|discriminate].
Qed.
Lemma lines_begin a b : one_line a -> one_line b -> python_comment (35 :: a ++ 10 :: 35 :: b).
Proof.
  intros Ha Hb. split; [eexists; reflexivity|]. intros x y E. destruct x as [|c x]; [discriminate E|]. cbn [app] in E. injection E as <- E.
  revert x E. induction a as [|d a IH]; intros x E; cbn [app] in E.
  - destruct x as [|c x]; cbn [app] in E; [injection E as <-; eexists; reflexivity|]. injection E as <- E. exfalso.
    destruct x as [|c x]; [discriminate E|]. cbn [app] in E. injection E as <- E. apply Hb. rewrite E. apply in_or_app. right. left. reflexivity.
  - destruct x as [|c x]; cbn [app] in E.
    + injection E as -> _. exfalso. apply Ha. left. reflexivity.
    + injection E as <- E. apply (IH (fun K => Ha (or_intror K)) x E).
Qed.
Lemma file_no_slash p n : file_of p n -> ~ In 47 n.
Proof. destruct 1; assumption. Qed.
Lemma named_no_slash input n : source_named input n -> ~ In 47 n.
Proof. destruct 1 as [| |p n _ F]; [vm_compute; intuition discriminate|vm_compute; intuition discriminate|exact (file_no_slash p n F)]. Qed.

Section Run.
Variable w : world.
Variable cfg : config.
Variables input output : option text.
Variable pr : process.
Variable parse : text -> M (list node).
Lemma run_title cx tool version n now other python a args vs e s e2 s2 file pos :
  s_txt a = lit "__TITLE__" -> unknown e (s_txt a) -> (forall im, w_scripts w im (s_txt a) = None) ->
  not_configured (k_define cfg) (s_txt a) -> dict_get (s_txt a) (pr_defines pr) = None ->
  language_of output python -> source_named input n -> w_rest w = more_builtins cx input (titled tool version now input output other) ->
  evals (run_ectx w cfg input output pr) parse (NList args) e s (NList vs) e2 s2 -> is_term (NList vs) = true -> (List.length vs <= 1)%nat ->
  exists dt, evals (run_ectx w cfg input output pr) parse (NApply (NVar (RList []) a) args [] file pos) e s (NRaw (title_text python tool version n now (y_output s2) dt)) e2 s2 /\
    (vs = [] -> dt = true) /\ (forall v, vs = [v] -> dt = truthy v).
Proof.
  intros Ea Hu Hs Hc Hp Lo Sn Hr Hv Ht Hl. pose proof (language_is _ _ Lo) as El. pose proof (named_is _ _ Sn) as En.
  assert (K : forall im, e_builtin (run_ectx w cfg input output pr) im (s_txt a) = Some (BFun (b_title python tool version n now))).
  { intros im. rewrite run_builtin, Hs. destruct (constants (k_define cfg) (pr_defines pr) (s_txt a)) as [_ C]. rewrite (C Hc), Hp, Hr, Ea. rewrite <- El, <- En. reflexivity. }
  destruct vs as [|v [|v2 vs]]; [| |cbn in Hl; lia].
  - exists true. split; [|split; [reflexivity|discriminate]].
    exact (name_function_of _ parse a args e s e2 s2 _ [] _ s2 file pos Hu (K _) (K _) Hv Ht eq_refl).
  - exists (truthy v). split; [|split; [discriminate|intros v' [= <-]; reflexivity]].
    exact (name_function_of _ parse a args e s e2 s2 _ [v] _ s2 file pos Hu (K _) (K _) Hv Ht eq_refl).
Qed.
Lemma title_comment python tool version n now out dt : one_line tool -> one_line version -> one_line n -> one_line now -> one_line out ->
  (python = true -> python_comment (title_text python tool version n now out dt)) /\
  (python = false -> ~ In 47 tool -> ~ In 47 version -> ~ In 47 n -> ~ In 47 now -> ~ In 47 out -> c_comment (title_text python tool version n now out dt)) /\
  (exists i, occurs_at n (title_text python tool version n now out dt) i) /\ (exists i, occurs_at out (title_text python tool version n now out dt) i).
Proof.
  unfold one_line. intros H1 H2 H3 H4 H5.
  assert (St : forall c, c <> 97 -> c <> 116 -> c <> 32 -> ~ In c now -> ~ In c (if dt then lit "at " ++ now else [])).
  { intros c C1 C2 C3 Hc. destruct dt; [|intros []]. intros K. apply in_app_or in K as [K|K]; [|exact (Hc K)]. change (lit "at ") with [97; 116; 32] in K. cbn [In] in K. destruct K as [K|[K|[K|[]]]]; congruence. }
  split; [|split; [|split]].
  - intros ->. unfold title_text.
    change (lit "#  ") with (35 :: lit "  "). change (lit "#  out of ") with (35 :: lit "  out of "). cbn [app].
    replace (lit "  " ++ out ++ lit " was generated by " ++ tool ++ lit " " ++ version ++ 10 :: 35 :: lit "  out of " ++ n ++ lit " " ++ (if dt then lit "at " ++ now else []))
      with ((lit "  " ++ out ++ lit " was generated by " ++ tool ++ lit " " ++ version) ++ 10 :: 35 :: (lit "  out of " ++ n ++ lit " " ++ (if dt then lit "at " ++ now else [])))
      by (repeat rewrite <- app_assoc; reflexivity).
    apply lines_begin; unfold one_line; repeat rewrite in_app_iff; pose proof (St 10 ltac:(discriminate) ltac:(discriminate) ltac:(discriminate) H4); cbn [lit In] in *;
      vm_compute (lit "  "); vm_compute (lit " was generated by "); vm_compute (lit " "); vm_compute (lit "  out of "); cbn [In]; intuition discriminate.
  - intros -> S1 S2 S3 S4 S5. unfold title_text.
    exists (lit "  " ++ out ++ lit " was generated by " ++ tool ++ lit " " ++ version ++ [10] ++ lit "    out of " ++ n ++ lit " " ++ (if dt then lit "at " ++ now else []) ++ [10] ++ lit " "). split.
    + change (lit "/*  ") with ([47; 42] ++ lit "  "). change (lit " */") with (lit " " ++ [42; 47]). repeat rewrite <- app_assoc. reflexivity.
    + apply no_end. pose proof (St 47 ltac:(discriminate) ltac:(discriminate) ltac:(discriminate) S4). repeat rewrite in_app_iff.
      vm_compute (lit "  "); vm_compute (lit " was generated by "); vm_compute (lit " "); vm_compute (lit "    out of "). cbn [In]. intuition discriminate.
  - destruct python; unfold title_text.
    + exists (List.length (lit "#  " ++ out ++ lit " was generated by " ++ tool ++ lit " " ++ version ++ [10] ++ lit "#  out of ")).
      eexists _, _. split; [|reflexivity]. repeat rewrite <- app_assoc. reflexivity.
    + exists (List.length (lit "/*  " ++ out ++ lit " was generated by " ++ tool ++ lit " " ++ version ++ [10] ++ lit "    out of ")).
      eexists _, _. split; [|reflexivity]. repeat rewrite <- app_assoc. reflexivity.
  - destruct python; unfold title_text; [exists (List.length (lit "#  "))|exists (List.length (lit "/*  "))]; eexists _, _; (split; [|reflexivity]); reflexivity.
Qed.
Lemma title_time cx tool version n now other python a args vs e s e2 s2 file pos :
  s_txt a = lit "__TITLE__" -> unknown e (s_txt a) -> (forall im, w_scripts w im (s_txt a) = None) ->
  not_configured (k_define cfg) (s_txt a) -> dict_get (s_txt a) (pr_defines pr) = None ->
  language_of output python -> source_named input n -> w_rest w = more_builtins cx input (titled tool version now input output other) ->
  evals (run_ectx w cfg input output pr) parse (NList args) e s (NList vs) e2 s2 -> is_term (NList vs) = true -> (List.length vs <= 1)%nat ->
  exists before after, let t timed := before ++ (if timed : bool then lit "at " ++ now else []) ++ after in
    forall timed, match vs with [] => timed = true | v :: _ => timed = truthy v end ->
    evals (run_ectx w cfg input output pr) parse (NApply (NVar (RList []) a) args [] file pos) e s (NRaw (t timed)) e2 s2.
Proof.
  intros Ea Hu Hs Hc Hp Lo Sn Hr Hv Ht Hl.
  destruct (run_title cx tool version n now other python a args vs e s e2 s2 file pos Ea Hu Hs Hc Hp Lo Sn Hr Hv Ht Hl) as (dt & R & D0 & D1).
  assert (E : exists before after, forall b, title_text python tool version n now (y_output s2) b = before ++ (if b : bool then lit "at " ++ now else []) ++ after).
  { destruct python; unfold title_text; cbv zeta.
    - exists (lit "#  " ++ y_output s2 ++ lit " was generated by " ++ tool ++ lit " " ++ version ++ [10] ++ lit "#  out of " ++ n ++ lit " "), []. intros b. rewrite app_nil_r. repeat rewrite <- app_assoc. reflexivity.
    - exists (lit "/*  " ++ y_output s2 ++ lit " was generated by " ++ tool ++ lit " " ++ version ++ [10] ++ lit "    out of " ++ n ++ lit " "), ([10] ++ lit " */"). intros b. repeat rewrite <- app_assoc. reflexivity. }
  destruct E as (b & f & E). exists b, f. intros t timed H. unfold t. rewrite <- E. replace timed with dt; [exact R|].
  destruct vs as [|v [|v2 vs]]; [rewrite D0, H; reflexivity|rewrite (D1 v eq_refl), H; reflexivity|cbn in Hl; inversion Hl as [|? X]; inversion X].
Qed.
Lemma title_of_a_run cx tool version n now other python a args vs e s e2 s2 file pos :
  s_txt a = lit "__TITLE__" -> unknown e (s_txt a) -> (forall im, w_scripts w im (s_txt a) = None) ->
  not_configured (k_define cfg) (s_txt a) -> dict_get (s_txt a) (pr_defines pr) = None ->
  language_of output python -> source_named input n -> w_rest w = more_builtins cx input (titled tool version now input output other) ->
  evals (run_ectx w cfg input output pr) parse (NList args) e s (NList vs) e2 s2 -> is_term (NList vs) = true -> (List.length vs <= 1)%nat ->
  Forall one_line [tool; version; n; now; y_output s2] -> ~ In 47 tool -> ~ In 47 version -> ~ In 47 now -> ~ In 47 (y_output s2) ->
  exists t, evals (run_ectx w cfg input output pr) parse (NApply (NVar (RList []) a) args [] file pos) e s (NRaw t) e2 s2 /\
    (if python then python_comment t else c_comment t) /\ (exists i, occurs_at n t i) /\ (exists i, occurs_at (y_output s2) t i).
Proof.
  intros Ea Hu Hs Hc Hp Lo Sn Hr Hv Ht Hl Ho S1 S2 S4 S5.
  destruct (run_title cx tool version n now other python a args vs e s e2 s2 file pos Ea Hu Hs Hc Hp Lo Sn Hr Hv Ht Hl) as (dt & R & _).
  inversion Ho as [|? ? O1 Ho1]; subst. inversion Ho1 as [|? ? O2 Ho2]; subst. inversion Ho2 as [|? ? O3 Ho3]; subst. inversion Ho3 as [|? ? O4 Ho4]; subst. inversion Ho4 as [|? ? O5 Ho5]; subst.
  destruct (title_comment python tool version n now (y_output s2) dt O1 O2 O3 O4 O5) as (P & C & In1 & In2).
  eexists. split; [exact R|]. split; [|split; assumption]. destruct python; [apply P; reflexivity|]. apply C; auto. exact (named_no_slash input n Sn).
Qed.
End Run.

