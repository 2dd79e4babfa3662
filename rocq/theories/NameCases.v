(** What names mean in a run; comparisons, truth tests and reduce; cases (proofs only). *)
From Coq Require Import List NArith ZArith Bool String Lia ZifyBool ZifyNat ZifyN.
From Verif Require Import PyStr Ast Lex Parse Final Eval Builtin Builtin2 Shell Pp PyStrFacts LexSpec EnvSpec EnvFacts EvalSpec EvalMono EvalKeep EvalPure EvalFacts EvalFacts2 EvalFacts3 EvalFacts4 EvalCases CoreSpec PpCases LexCases BuiltinSpec BuiltinFacts TextSpec TextFacts TextCases QuoteSpec QuoteFacts NameSpec NameFacts.
Import ListNotations.
Open Scope list_scope.

Section Any.
Variable ec : ectx.
Variable parse : text -> M (list node).
Notation evs := (evals ec parse).
Lemma args_none e s : evs (NList []) e s (NList []) e s.
Proof. exists 1%nat. reflexivity. Qed.
(** the innermost scope that knows the name *)
Lemma name_defined reg a e inner f outer v s : innermost e inner f outer (s_txt a) -> gives f (s_txt a) v -> v <> NBound ->
  evs (NVar reg a) e s v e s.
Proof.
  intros Hi Hg Hv. exists 1%nat. cbn [yueval eval_body]. unfold eval_var, ebind, get_env. rewrite (lookup_innermost e inner f outer _ v Hi Hg).
  destruct v; try contradiction; reflexivity.
Qed.
(** a parameter without a value *)
Lemma name_open reg a e inner f outer s : innermost e inner f outer (s_txt a) -> gives f (s_txt a) NBound -> evs (NVar reg a) e s (NVar reg a) e s.
Proof. intros Hi Hg. exists 1%nat. cbn [yueval eval_body]. unfold eval_var, ebind, get_env. rewrite (lookup_innermost e inner f outer _ _ Hi Hg). reflexivity. Qed.
Lemma name_constant_of a e s v file pos : unknown e (s_txt a) -> e_builtin ec (y_script s) (s_txt a) = Some (BConst v) ->
  evs (NApply (NVar (RList []) a) [] [] file pos) e s (const_result v) e s.
Proof.
  intros Hu Hb. apply evals_fin. rewrite (apply_fin ec parse _ [] [] file pos e s _ e s _ e s _ (builtin_name ec parse a e s _ Hu Hb) (args_none e s)).
  unfold apply_rest. cbn [as_closure named_unexpected]. split; [discriminate|]. exists O. unfold apply_builtin, find_builtin, ebind, lift_m, bind, get_st, ret. rewrite Hb. reflexivity.
Qed.
Lemma name_function_of a args e s e2 s2 f vs v s3 file pos : unknown e (s_txt a) -> e_builtin ec (y_script s) (s_txt a) = Some (BFun f) -> e_builtin ec (y_script s2) (s_txt a) = Some (BFun f) ->
  evs (NList args) e s (NList vs) e2 s2 -> is_term (NList vs) = true -> f vs s2 = Ok (v, s3) ->
  evs (NApply (NVar (RList []) a) args [] file pos) e s (builtin_result v) e2 s3.
Proof.
  intros Hu Hb Hb2 Ha Ht Hf. apply evals_fin. rewrite (apply_fin ec parse _ args [] file pos e s _ e s _ e2 s2 _ (builtin_name ec parse a e s _ Hu Hb) Ha).
  unfold apply_rest. cbn [as_closure named_unexpected]. split; [discriminate|]. exists O. unfold apply_builtin, find_builtin, ebind, lift_m, bind, get_st, ret. rewrite Hb2.
  unfold apply_function, ebind, lift_m. rewrite Ht, Hf. reflexivity.
Qed.
Lemma name_itself_of a e s : unknown e (s_txt a) -> e_builtin ec (y_script s) (s_txt a) = None -> is_special (s_txt a) = false -> ~ In 45%N (s_txt a) ->
  evs (NVar (RList []) a) e s (NAtom a) e s.
Proof.
  intros Hu Hb Hs Hh. apply lookup_unknown in Hu. exists 1%nat. cbn [yueval eval_body].
  unfold eval_var, find_builtin, ebind, get_env, lift_m, bind, get_st, ret. rewrite Hu, Hb, Hs. cbv beta iota.
  replace (has_char 45 (s_txt a)) with false; [reflexivity|]. symmetry. unfold has_char. apply not_true_iff_false. intros H. apply existsb_exists in H as (c & Hc & E). apply N.eqb_eq in E. subst c. contradiction.
Qed.
Lemma name_outside_of l r a e s : unknown e (s_txt a) -> finishes ec parse (NVar (RList (l :: r)) a) e s (Err (Exn TypeError "yueval: undefined variable")).
Proof.
  intros Hu. apply lookup_unknown in Hu. split; [discriminate|]. exists 1%nat. cbn [yueval eval_body]. unfold eval_var, ebind, get_env. rewrite Hu. reflexivity.
Qed.
(** ** isatom and reduce *)
Lemma isatom_spec a x v e s e2 s2 file pos : s_txt a = lit "isatom" -> unknown e (s_txt a) -> e_builtin ec (y_script s) (s_txt a) = None ->
  evs (NList [x]) e s (NList [v]) e2 s2 ->
  exists b, evs (NApply (NVar (RList []) a) [x] [] file pos) e s (NInt b) e2 s2 /\ (b = 1 \/ b = 0)%Z /\ (b = 1%Z <-> (exists n, v = NAtom n) \/ (exists r n, v = NVar r n)).
Proof.
  intros Ea Hu Hb Hx. exists (match v with NAtom _ | NVar _ _ => 1 | _ => 0 end)%Z. split.
  - apply evals_fin. assert (Hsp : is_special (s_txt a) = true) by (rewrite Ea; reflexivity).
    rewrite (apply_fin ec parse _ [x] [] file pos e s _ e s _ e2 s2 _ (special_name ec parse a e s Hu Hb Hsp) Hx).
    unfold apply_rest. cbn [as_closure named_unexpected]. unfold apply_special. rewrite Ea.
    change (teqb (lit "isatom") (lit "lazy")) with false. change (teqb (lit "isatom") (lit "repr")) with false. change (teqb (lit "isatom") (lit "reduce")) with false.
    change (teqb (lit "isatom") (lit "isatom")) with true. cbv zeta. split; [discriminate|]. exists O. reflexivity.
  - split; [destruct v; auto|]. split.
    + destruct v; intros H; try discriminate H; [left; eexists; reflexivity|right; do 2 eexists; reflexivity] || (left; eexists; reflexivity) || (right; do 2 eexists; reflexivity).
    + intros [(n & ->)|(r & n & ->)]; reflexivity.
Qed.
Definition steps (name : text) (x y z : node) : Prop :=
  exists g, (forall imported, e_builtin ec imported name = Some (BFun g)) /\ forall st, g [x; y] st = Ok (z, st).
Lemma reduce_folds name g acc l v : (forall imported, e_builtin ec imported name = Some (BFun g)) -> folds (steps name) acc l v -> forall st, reduce_list g acc l st = Ok (v, st).
Proof.
  intros Hg. induction 1 as [acc|acc x r y v (g' & Hg' & Hy) _ IH]; intros st; [reflexivity|]. cbn [reduce_list]. unfold bind.
  specialize (Hg' []). rewrite (Hg []) in Hg'. injection Hg' as <-. rewrite Hy. apply IH.
Qed.
Lemma reduce_spec a args e s e2 s2 b x l v file pos g : s_txt a = lit "reduce" -> unknown e (s_txt a) -> e_builtin ec (y_script s) (s_txt a) = None ->
  (forall imported, e_builtin ec imported (s_txt b) = Some (BFun g)) -> forallb is_term (x :: l) = true -> folds (steps (s_txt b)) x l v ->
  (evs (NList args) e s (NList [NBuiltin b; NList (x :: l)]) e2 s2 \/ evs (NList args) e s (NList [NBuiltin b; NList l; x]) e2 s2) ->
  evs (NApply (NVar (RList []) a) args [] file pos) e s v e2 s2.
Proof.
  intros Ea Hu Hb Hg Ht Hf Ha. assert (Hsp : is_special (s_txt a) = true) by (rewrite Ea; reflexivity). pose proof (special_name ec parse a e s Hu Hb Hsp) as Hn.
  cbn [forallb] in Ht. apply andb_true_iff in Ht as [Tx Tl].
  destruct Ha as [Ha|Ha]; apply evals_fin; rewrite (apply_fin ec parse _ args [] file pos e s _ e s _ e2 s2 _ Hn Ha);
    unfold apply_rest; cbn [as_closure named_unexpected]; unfold apply_special; rewrite Ea;
    change (teqb (lit "reduce") (lit "lazy")) with false; change (teqb (lit "reduce") (lit "repr")) with false; change (teqb (lit "reduce") (lit "reduce")) with true;
    cbv zeta; (split; [discriminate|]); exists O; cbn [is_term forallb]; rewrite Tx, Tl; cbn [andb];
    unfold find_builtin, ebind, lift_m, bind, get_st, ret; rewrite Hg; unfold py_reduce; cbn [py_iter list_of]; rewrite (reduce_folds _ g _ _ _ Hg Hf); reflexivity.
Qed.
Lemma call_equal x y : offers ec (lit "eq") -> offers ec (lit "ne") -> is_term x = true -> is_term y = true ->
  exists b c, call_yields ec (lit "eq") [x; y] (NInt b) /\ call_yields ec (lit "ne") [x; y] (NInt c) /\ (b = 1 /\ c = 0 /\ equal x y \/ b = 0 /\ c = 1 /\ ~ equal x y)%Z.
Proof.
  intros O1 O2 Hx Hy. exists (if py_eq x y then 1 else 0)%Z, (if negb (py_eq x y) then 1 else 0)%Z.
  assert (T : is_term (NList [x; y]) = true) by (cbn [is_term forallb]; rewrite Hx, Hy; reflexivity). split; [|split].
  - exact (call_offered ec _ b_eq _ (NBool (py_eq x y)) O1 (fun _ _ => eq_refl) T (fun _ => eq_refl)).
  - exact (call_offered ec _ b_ne _ (NBool (negb (py_eq x y))) O2 (fun _ _ => eq_refl) T (fun _ => eq_refl)).
  - destruct (py_eq_spec x y) as [E|E]; cbn [negb]; [left|right]; repeat split; exact E.
Qed.
Lemma call_not x : offers ec (lit "not") -> is_term x = true -> (exists z, int_value x z) \/ (exists t, str_of x = Some t) \/ (exists l, list_of x = Some l) ->
  exists b, call_yields ec (lit "not") [x] (NInt b) /\ (b = 1 /\ false_value x \/ b = 0 /\ ~ false_value x)%Z.
Proof.
  intros O1 Hx Hk. exists (if negb (truthy x) then 1 else 0)%Z. split.
  - refine (call_offered ec _ b_not [x] (NBool (negb (truthy x))) O1 (fun _ _ => eq_refl) _ (fun _ => eq_refl)). cbn [is_term forallb]. rewrite Hx. reflexivity.
  - assert (F : false_value x <-> truthy x = false).
    { destruct Hk as [[z Hz]|[[t Ht]|[l Hl]]].
      - destruct Hz as [z| |]; cbn [truthy]; split; intros H; try discriminate H; try (inversion H; subst; try discriminate; reflexivity); try apply FV_false.
        destruct (z =? 0)%Z eqn:E; [|discriminate H]. apply Z.eqb_eq in E. subst z. apply FV_zero.
      - assert (E : truthy x = match t with [] => false | _ => true end) by (destruct x; try discriminate Ht; cbn [truthy]; rewrite Ht; destruct t; reflexivity).
        rewrite E. split; intros H.
        + destruct H as [| | |x Ht'|x Hl]; try discriminate Ht; [rewrite Ht in Ht'; injection Ht' as ->; reflexivity|]. destruct x; discriminate Hl || discriminate Ht.
        + apply FV_text. destruct t; [exact Ht|discriminate H].
      - assert (E : truthy x = match l with [] => false | _ => true end) by (destruct x; try discriminate Hl; cbn [truthy str_of]; rewrite Hl; destruct l; reflexivity).
        rewrite E. split; intros H.
        + destruct H as [| | |x Ht|x Hl']; try discriminate Hl; [destruct x; discriminate Hl || discriminate Ht|]. rewrite Hl in Hl'. injection Hl' as ->. reflexivity.
        + apply FV_list. destruct l; [exact Hl|discriminate H]. }
    destruct (truthy x); cbn [negb]; [right|left]; (split; [reflexivity|]); [intros H; apply F in H; discriminate H|apply F; reflexivity].
Qed.
Lemma call_islist x : offers ec (lit "islist") -> is_term x = true ->
  exists b, call_yields ec (lit "islist") [x] (NInt b) /\ (b = 1 /\ (exists l, list_of x = Some l) \/ b = 0 /\ list_of x = None)%Z.
Proof.
  intros O1 Hx. exists (if match list_of x with Some _ => true | None => false end then 1 else 0)%Z. split.
  - refine (call_offered ec _ b_islist [x] (NBool match list_of x with Some _ => true | None => false end) O1 (fun _ _ => eq_refl) _ (fun _ => eq_refl)). cbn [is_term forallb]. rewrite Hx. reflexivity.
  - destruct (list_of x) as [l|]; [left; split; [reflexivity|exists l; reflexivity]|right; split; reflexivity].
Qed.
Lemma call_list l : offers ec (lit "list") -> forallb is_term l = true -> call_yields ec (lit "list") l (NList l).
Proof. intros O1 Hx. exact (call_offered ec _ b_list l (NList l) O1 (fun _ _ => eq_refl) Hx (fun _ => eq_refl)). Qed.
End Any.

Section Run.
Variables (w : world) (cfg : config) (input output : option text) (pr : process).
Let ec := run_ectx w cfg input output pr.
Variable parse : text -> M (list node).
Notation evs := (evals ec parse).
Lemma run_builtin im name : e_builtin ec im name =
  match w_scripts w im name with
  | Some b => Some b
  | None => match dict_get name (updated_defines (k_define cfg) (pr_defines pr)) with
            | Some v => Some (BConst v)
            | None => if teqb name (lit "__FILE__") then Some (BFun (b_file (input_key input)))
                      else match dict_get name core with Some f => Some (BFun f) | None => w_rest w name end
            end
  end.
Proof. reflexivity. Qed.
Lemma run_constant a v e s file pos : unknown e (s_txt a) -> w_scripts w (y_script s) (s_txt a) = None -> configured (k_define cfg) (s_txt a) v ->
  evs (NApply (NVar (RList []) a) [] [] file pos) e s v e s.
Proof.
  intros Hu Hs Hc. destruct (constants (k_define cfg) (pr_defines pr) (s_txt a)) as [C _].
  assert (K : e_builtin ec (y_script s) (s_txt a) = Some (BConst v)) by (rewrite run_builtin, Hs, (C v Hc); reflexivity).
  replace v with (const_result v) at 1; [apply name_constant_of; assumption|]. destruct Hc as (b & x & r & _ & Hx & _). destruct Hx; reflexivity.
Qed.
Lemma run_script_function a args e s e2 s2 f vs v s3 file pos : unknown e (s_txt a) -> w_scripts w (y_script s) (s_txt a) = Some (BFun f) -> w_scripts w (y_script s2) (s_txt a) = Some (BFun f) ->
  evs (NList args) e s (NList vs) e2 s2 -> is_term (NList vs) = true -> f vs s2 = Ok (v, s3) ->
  evs (NApply (NVar (RList []) a) args [] file pos) e s (builtin_result v) e2 s3.
Proof. intros Hu H1 H2 Ha Ht Hf. eapply name_function_of; try eassumption; rewrite run_builtin; [rewrite H1|rewrite H2]; reflexivity. Qed.
Lemma run_offers cx inp other name f : (forall im, w_scripts w im name = None) -> not_configured (k_define cfg) name -> dict_get name (pr_defines pr) = None -> name <> lit "__FILE__" ->
  w_rest w = more_builtins cx inp other -> dict_get name (core ++ more cx inp) = Some f -> offers ec name.
Proof.
  intros Hs Hc Hp Hf Hr Hg. exists cx, inp. intros im. rewrite run_builtin, Hs. destruct (constants (k_define cfg) (pr_defines pr) name) as [_ C]. rewrite (C Hc), Hp.
  destruct (teqb_spec name (lit "__FILE__")) as [E|_]; [contradiction|]. rewrite Hg. cbn [option_map].
  assert (A : dict_get name (core ++ more cx inp) = match dict_get name core with Some f => Some f | None => dict_get name (more cx inp) end).
  { clear. generalize core as l, (more cx inp) as m. induction l as [|[k v] l IH]; intros m; [reflexivity|]. cbn [app dict_get]. destruct (teqb name k); [reflexivity|apply IH]. }
  rewrite A in Hg. destruct (dict_get name core) as [g|]; [injection Hg as ->; reflexivity|]. rewrite Hr. unfold more_builtins. rewrite Hg. reflexivity.
Qed.
Lemma run_itself a e s : unknown e (s_txt a) -> w_scripts w (y_script s) (s_txt a) = None -> not_configured (k_define cfg) (s_txt a) -> dict_get (s_txt a) (pr_defines pr) = None ->
  ~ In (s_txt a) (lit "__FILE__" :: map fst core ++ [lit "__PASSAGE__"; lit "isatom"; lit "lazy"; lit "skip"; lit "reduce"; lit "repr"]) -> w_rest w (s_txt a) = None -> ~ In 45%N (s_txt a) ->
  evs (NVar (RList []) a) e s (NAtom a) e s.
Proof.
  intros Hu Hs Hc Hp Hn Hr Hh. apply name_itself_of; [exact Hu| | |exact Hh].
  - rewrite run_builtin, Hs. destruct (constants (k_define cfg) (pr_defines pr) (s_txt a)) as [_ C]. rewrite (C Hc), Hp.
    destruct (teqb_spec (s_txt a) (lit "__FILE__")) as [E|_]; [exfalso; apply Hn; left; symmetry; exact E|].
    replace (dict_get (s_txt a) core) with (@None (list node -> M node)); [exact Hr|]. symmetry. apply dict_get_none. intros H. apply Hn. right. apply in_or_app. left. exact H.
  - unfold is_special. apply not_true_iff_false. intros H. apply existsb_exists in H as (k & Hk & E). destruct (teqb_spec (s_txt a) k) as [<-|]; [|discriminate E].
    apply Hn. right. apply in_or_app. right. exact Hk.
Qed.
Lemma run_file a e s file pos : s_txt a = lit "__FILE__" -> unknown e (s_txt a) -> (forall im, w_scripts w im (s_txt a) = None) -> not_configured (k_define cfg) (s_txt a) -> dict_get (s_txt a) (pr_defines pr) = None ->
  evs (NApply (NVar (RList []) a) [] [] file pos) e s (NRaw (34%N :: input_key input ++ [34%N])) e s.
Proof.
  intros Ea Hu Hs Hc Hp. assert (K : forall im, e_builtin ec im (s_txt a) = Some (BFun (b_file (input_key input)))).
  { intros im. rewrite run_builtin, Hs. destruct (constants (k_define cfg) (pr_defines pr) (s_txt a)) as [_ C]. rewrite (C Hc), Hp, Ea. reflexivity. }
  exact (name_function_of ec parse a [] e s e s _ [] (NRaw (34%N :: input_key input ++ [34%N])) s file pos Hu (K _) (K _) (args_none ec parse e s) eq_refl eq_refl).
Qed.
Lemma run_output_file a e s file pos : s_txt a = lit "__OUTPUT_FILE__" -> unknown e (s_txt a) -> (forall im, w_scripts w im (s_txt a) = None) -> not_configured (k_define cfg) (s_txt a) -> dict_get (s_txt a) (pr_defines pr) = None ->
  evs (NApply (NVar (RList []) a) [] [] file pos) e s (NRaw (34%N :: y_output s ++ [34%N])) e s.
Proof.
  intros Ea Hu Hs Hc Hp. assert (K : forall im, e_builtin ec im (s_txt a) = Some (BFun b_output_file)).
  { intros im. rewrite run_builtin, Hs. destruct (constants (k_define cfg) (pr_defines pr) (s_txt a)) as [_ C]. rewrite (C Hc), Hp, Ea. reflexivity. }
  exact (name_function_of ec parse a [] e s e s _ [] (NRaw (34%N :: y_output s ++ [34%N])) s file pos Hu (K _) (K _) (args_none ec parse e s) eq_refl eq_refl).
Qed.
End Run.

(** ** Cases *)
Lemma offers2 : Forall (fun n => offers ec1 (lit n)) ["unq"; "strlen"; "q"; "qs"; "eq"; "ne"; "not"; "islist"; "list"]%string.
Proof. repeat constructor; exists ctx0, None; intros im; reflexivity. Qed.
Lemma literal_case : denotes (inside 34) (lit "a\n\x41\101\d") ([97; 10; 65; 65; 92; 100])%N /\
  call1 "unq" [txt """a\n\x41\101\d"""] (NRaw [97; 10; 65; 65; 92; 100]%N) /\ call1 "strlen" [txt """a\n\x41\101\d"""] (NInt 6) /\
  call1 "q" [NRaw (10%N :: lit "c:\x")] (NRaw (lit """\nc:\\x""")) /\ call1 "qs" [NRaw [233%N; 8364%N]] (NRaw (lit "'\xe9\u20ac'")).
Proof.
  split; [|unfold call1; repeat split; run 9%nat].
  change (lit "a\n\x41\101\d") with [97; 92; 110; 92; 120; 52; 49; 92; 49; 48; 49; 92; 100]%N.
  apply DN_char; [unfold inside; lia|lia|]. apply (DN_escape _ [92; 110]%N 10%N _ _ ES_line_feed).
  apply (DN_escape _ [92; 120; 52; 49]%N 65%N); [apply (ES_x [52; 49]%N); [repeat apply Forall_cons; try apply Forall_nil; unfold hex_digit, decimal_digit; lia|reflexivity]|].
  apply (DN_octal _ [49; 48; 49]%N); [repeat apply Forall_cons; try apply Forall_nil; unfold oct_digit; lia|cbn; lia|left; reflexivity|].
  apply DN_kept; [unfold inside; lia| |apply DN_end]. unfold escape_letter, oct_digit. cbn [In]. lia.
Qed.
Lemma quotation_marks : exists t, ~ (exists w v, call_yields ec1 (lit "q") [NRaw t] (NRaw (34%N :: w ++ [34%N])) /\ denotes (inside 34) w v).
Proof.
  exists (lit "a""b"). intros (w & v & Hc & Hd). specialize (Hc noparse (raw (lit "q")) [NRaw (lit "a""b")] [] st0 [] st0 None 0%Z eq_refl (Forall_nil _)).
  assert (A : evals ec1 noparse (NList [NRaw (lit "a""b")]) [] st0 (NList [NRaw (lit "a""b")]) [] st0) by run 5%nat.
  specialize (Hc A). assert (B : evals ec1 noparse (NApply (NVar (RList []) (raw (lit "q"))) [NRaw (lit "a""b")] [] None 0) [] st0 (NRaw (lit """a""b""")) [] st0) by run 9%nat.
  destruct (evals_det _ _ _ _ _ _ _ _ _ _ _ Hc B) as (E & _). cbn in E. assert (Ew : w ++ [34%N] = [97%N; 34%N; 98%N] ++ [34%N]) by (injection E as E; exact E).
  apply app_inj_tail in Ew as [-> _]. exact (denotes_first_quote 34 [97%N] [98%N] v (or_introl eq_refl) ltac:(cbn; lia) Hd).
Qed.
Ltac absent := let H := fresh in intros H; vm_compute in H; repeat (destruct H as [H|H]; [discriminate H|]); exact H.
Definition opts0 : list text := [lit "MODE:slow"; lit " MODE : fast "; lit "DEBUG"; lit "2X:1"].
Lemma bare_none t : ~ begins_with space t -> ~ ends_with space t -> bare_text t t.
Proof. intros H1 H2. exists [], []. cbn [app]. rewrite app_nil_r. repeat split; try apply Forall_nil; assumption. Qed.
Lemma options_case : configured opts0 (lit "MODE") (NRaw (lit "fast")) /\ configured opts0 (lit "DEBUG") (NBool true) /\ not_configured opts0 (lit "X").
Proof.
  assert (S1 : option_sets (lit " MODE : fast ") (lit "MODE") (NRaw (lit "fast"))).
  { pose proof (strip_bare (lit " MODE ")) as B1. pose proof (strip_bare (lit " fast ")) as B2.
    apply (OS_value (lit " MODE ") (lit "MODE") (lit " fast ") (lit "fast")); [absent|exact B1| |exact B2|discriminate].
    apply identifier_dec; reflexivity. }
  assert (S2 : option_sets (lit "DEBUG") (lit "DEBUG") (NBool true)).
  { pose proof (strip_bare (lit "DEBUG")) as B1. apply OS_bare; [absent|exact B1|].
    apply identifier_dec; reflexivity. }
  assert (V : forall x k v k', option_sets x k v -> define_one [] x = [(k', of_option v)] -> k = k').
  { intros x k v k' H E. rewrite (define_sets [] x k v H) in E. cbn [dict_set] in E. injection E as E. exact E. }
  assert (D : forall x k v, option_sets x k v -> exists c, define_one [] x = [(k, c)]) by (intros x k v H; rewrite (define_sets [] x k v H); eexists; reflexivity).
  split; [|split].
  - exists [lit "MODE:slow"], (lit " MODE : fast "), [lit "DEBUG"; lit "2X:1"]. split; [reflexivity|]. split; [exact S1|].
    intros y v' [<-|[<-|[]]] H; apply D in H as (c & H); vm_compute in H; discriminate H.
  - exists [lit "MODE:slow"; lit " MODE : fast "], (lit "DEBUG"), [lit "2X:1"]. split; [reflexivity|]. split; [exact S2|].
    intros y v' [<-|[]] H; apply D in H as (c & H); vm_compute in H; discriminate H.
  - intros x v [<-|[<-|[<-|[<-|[]]]]] H; apply D in H as (c & H); vm_compute in H; discriminate H.
Qed.
(** One run: a definition of the source, a constant of the configuration, a name
    that stands for itself *)
Lemma names_case :
  pp world0 (Config 0 true false false opts0 [] 0) 1 60 (lit "($MODE) ($set MODE quick)($MODE) ($DEBUG) ($lower NaMe)") (Some (lit "a.yu-c")) (Some (lit "a.c")) process0 =
    Ok (PP true (lit "fast quick True name") None None false 0).
Proof. vm_compute. reflexivity. Qed.
Lemma compare_case :
  call1 "eq" [txt "a"; NRaw (lit "a")] (NInt 1) /\ call1 "eq" [NList [NInt 1]; NList [NInt 2]] (NInt 0) /\ call1 "ne" [txt "1"; NInt 1] (NInt 1) /\
  call1 "not" [NList []] (NInt 1) /\ call1 "not" [txt "x"] (NInt 0) /\ call1 "islist" [NList []] (NInt 1) /\ call1 "islist" [txt "x"] (NInt 0) /\
  call1 "list" [NInt 1; txt "x"] (NList [NInt 1; txt "x"]).
Proof. unfold call1. repeat split; run 9%nat. Qed.
Lemma reduce_case : exists s, evals ec1 noparse (call (var "reduce") [var "sub"; NList [NInt 10; NInt 2; NInt 3]]) [] st0 (NInt 5) [] s.
Proof. eexists. exists 9%nat. vm_compute. reflexivity. Qed.
