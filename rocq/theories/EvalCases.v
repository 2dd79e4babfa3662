(** Concrete cases for evaluation, and small wrappers (proofs only). *)
From Coq Require Import List NArith ZArith Bool String.
From Verif Require Import PyStr Ast Lex Parse Final Eval Builtin EnvSpec EnvFacts EvalSpec EvalMono EvalKeep EvalPure EvalFacts EvalFacts2 EvalFacts3 EvalFacts4.
Import ListNotations.
Open Scope list_scope.

(** a context with the modelled built-ins and nothing else *)
Definition ctx0 : pctx :=
  Ctx false SkipNone (lit "main.yu") [] (fun _ => None) (fun t => t) (fun _ => Ok tt)
      (fun t => Ok t) (fun _ => []).
Definition ec_at (trim : bool) (passage : Z) : ectx :=
  ECtx ctx0 trim false passage (builtin_with [] (fun _ _ => None) (lit "main.yu") (fun _ => None))
       (fun _ => Ok []) (fun _ _ => Ok NNone) (fun t => t) (fun _ => 0%Z) (fun _ => []).
Definition ec0 := ec_at true 0.
Definition noparse : text -> M (list node) := fun _ => ret [].
Definition st0 : yst := St [] [] [] 0 [] [] None false [] [] [].
Definition var (t : string) : node := NVar (RList []) (raw (lit t)).
Definition name0 (t : string) : source := raw (lit t).
Definition words (t : string) : node := NPlain (raw (lit t)) IndNone false.
Definition call (f : node) (args : list node) : node := NApply f args [] None 0.

Ltac run n := exists n; vm_compute; reflexivity.

(** ** C14 *)
Lemma evals_keep_names ec parse x e s v e' s' : evals ec parse x e s v e' s' -> scopes e' = scopes e.
Proof. intros [n H]. eapply yueval_keeps, H. Qed.
Lemma evals_only_emit allow ec parse x e s v e' s' :
  emits_only_ctx allow ec parse -> emits_only allow x = true -> emits_only_env allow e = true ->
  evals ec parse x e s v e' s' ->
  env_agrees allow e e' /\ emits_only_env allow e' = true /\ emits_only allow v = true.
Proof.
  intros Hc Hx He [n H]. destruct (yueval_still allow ec parse n Hc x Hx e s v e' s' He H) as (H1 & H2 & H3). auto.
Qed.
(* { a = 1 outside; ($set a 5)($set b 6) text ($emit l) } *)
Definition scope_env : env := [[(lit "a", NInt 1); (lit "l", NList [NInt 7; NInt 8])]].
Definition scope_text : node :=
  NText [NSet (LAtom (name0 "a")) (NInt 5); NSet (LAtom (name0 "b")) (NInt 6);
         call (var "a") []; words ","; call (var "b") []; words ","; NEmit (RList []) (name0 "l") NNone] 0 0.
Lemma scope_case :
  evals ec0 noparse scope_text scope_env st0 (NRaw (lit "5,6,7"))
    [[(lit "a", NInt 1); (lit "l", NList [NInt 8])]] st0.
Proof. run 20%nat. Qed.
Lemma core_emits_nothing allow name f args s v s' : dict_get name core = Some f ->
  forallb (emits_only allow) args = true -> f args s = Ok (v, s') -> emits_only allow v = true.
Proof.
  intros Hf Ha H.
  assert (Hseq : forall x l, emits_only allow x = true -> seq_of x = Some (SeqL l) -> forallb (emits_only allow) l = true).
  { intros x l Hx Hs. unfold seq_of in Hs. destruct (list_of x) as [m|] eqn:El.
    - injection Hs as <-. eapply ok_list_of; eassumption.
    - destruct (str_of x); discriminate Hs. }
  assert (Hon : forall (g : forall A, list A -> list A) x s v s',
            (forall l, forallb (emits_only allow) l = true -> forallb (emits_only allow) (g node l) = true) ->
            emits_only allow x = true -> on_seq g x s = Ok (v, s') -> emits_only allow v = true).
  { intros g x s2 v2 s3 Hg Hx Hs. unfold on_seq in Hs. destruct (seq_of x) as [[l|t]|] eqn:Es.
    - injection Hs as <- _. cbn [emits_only]. apply Hg. eapply Hseq; eassumption.
    - injection Hs as <- _. reflexivity.
    - discriminate Hs. }
  assert (Hfn : forall n (l : list node), forallb (emits_only allow) l = true -> forallb (emits_only allow) (firstn n l) = true).
  { intros n l. rewrite !forallb_forall. intros Hl x Hx. apply Hl. rewrite <- (firstn_skipn n l). apply in_or_app. auto. }
  assert (Hsk : forall n (l : list node), forallb (emits_only allow) l = true -> forallb (emits_only allow) (skipn n l) = true).
  { intros n l. rewrite !forallb_forall. intros Hl x Hx. apply Hl. rewrite <- (firstn_skipn n l). apply in_or_app. auto. }
  assert (Hrv : forall (l : list node), forallb (emits_only allow) l = true -> forallb (emits_only allow) (rev l) = true).
  { intros l. rewrite !forallb_forall. intros Hl x Hx. apply Hl. apply in_rev, Hx. }
  assert (Hz : forall n a b, forallb (emits_only allow) (zrange n a b) = true).
  { induction n as [|n IHn]; intros a b; cbn [zrange forallb]; [reflexivity|]. rewrite IHn. reflexivity. }
  assert (Hu : forall l acc s v s', forallb (emits_only allow) acc = true -> forallb (emits_only allow) l = true ->
             unique_loop acc l s = Ok (v, s') -> forallb (emits_only allow) v = true).
  { induction l as [|x l IHl]; intros acc s2 v2 s3 Hacc Hl; cbn [unique_loop].
    - intros [= <- _]. apply Hrv, Hacc.
    - cbn [forallb] in Hl. apply andb_true_iff in Hl as [Hx Hl]. destruct (negb (hashable x)); [discriminate|].
      unfold bind, get_st, modify. destruct (existsb (py_eq x) (y_unique s2)); [apply IHl; assumption|].
      apply IHl; [|assumption]. cbn [forallb]. rewrite Hx, Hacc. reflexivity. }
  assert (Hit : forall x l, emits_only allow x = true -> py_iter x = Some l -> forallb (emits_only allow) l = true).
  { intros x l Hx Hl. eapply okl_py_iter; eassumption. }
  assert (Hst : forall a b c (l : list node), forallb (emits_only allow) l = true -> forallb (emits_only allow) (slice_step a b c l) = true).
  { intros a b c l. rewrite !forallb_forall. intros Hl x Hx. unfold slice_step in Hx. apply in_flat_map in Hx as (i & _ & Hx).
    destruct (nth_error l _) as [y|] eqn:En; [|destruct Hx]. destruct Hx as [<-|[]]. apply Hl. eapply nth_error_In, En. }
  assert (Hcc : forall n (l : list node), forallb (emits_only allow) l = true -> forallb (emits_only allow) (List.concat (repeat l n)) = true).
  { intros n l Hl. induction n as [|n IHn]; cbn [repeat List.concat]; [reflexivity|]. rewrite forallb_app, Hl. exact IHn. }
  unfold core in Hf. cbn [dict_get] in Hf.
  repeat match type of Hf with (if ?c then _ else _) = _ => destruct c; [injection Hf as <-|] end;
    [..|discriminate Hf].
  all: unfold b_car, b_cdr, b_reversed, b_len, b_list, b_islist, b_inc, b_dec, b_index, b_rindex, b_range, b_unique,
    b_getslice, b_add, b_sub, b_mul, b_lt, b_le, b_gt, b_ge, b_eq, b_ne, b_not, b_int2, b_order, b_space, b_tab, b_output_file,
    b_str1, arg1, arg2, type_error, throw, ret, bind, get_st, opt_index in H.
  all: repeat match type of H with
       | match ?c with _ => _ end _ = _ => let E := fresh "E" in destruct c eqn:E
       | match ?c with _ => _ end = _ => let E := fresh "E" in destruct c eqn:E
       | (if ?c then _ else _) _ = _ => let E := fresh "E" in destruct c eqn:E
       end; try discriminate H; try (injection H as <- _; try reflexivity; try assumption).
  all: cbn [forallb] in Ha; repeat (apply andb_true_iff in Ha as [? Ha]).
  all: try (eapply Hon; [| |exact H]; [intros ?l ?Hl; unfold slice1; auto|assumption]; fail).
  all: try (eapply Hon; [| |exact H]; [intros ?l ?Hl; apply Hst; assumption|assumption]; fail).
  all: try (eapply Hon; [| |exact H]; [intros ?l ?Hl; apply Hcc; assumption|assumption]; fail).
  all: cbn [emits_only]; try (unfold py_range; apply Hz; fail); try (apply forallb_app; auto; fail).
  all: try (rewrite forallb_app; apply andb_true_iff; split; (eapply Hseq; [|eassumption]; assumption)).
  all: try (eapply Hu; [| |eassumption]; [reflexivity|eapply Hit; eassumption]).
Qed.
Lemma ec0_emits_nothing allow : emits_only_ctx allow ec0 noparse.
Proof.
  split; [|split; [|split]].
  - intros k s l s' [= <- _]. reflexivity.
  - intros sc a v. cbn [ec0 ec_at e_builtin]. unfold builtin_with. cbn [dict_get].
    destruct (teqb a (lit "__FILE__")); [discriminate|]. destruct (dict_get a core); discriminate.
  - intros sc a f args s v s'. cbn [ec0 ec_at e_builtin]. unfold builtin_with. cbn [dict_get].
    destruct (teqb a (lit "__FILE__")).
    + intros [= <-] _. unfold b_file, type_error, throw, ret. destruct args; [intros [= <- _]; reflexivity|discriminate].
    + destruct (dict_get a core) as [g|] eqn:Eg; [|discriminate]. intros [= <-]. eapply core_emits_nothing, Eg.
  - intros t f v _ [= <-]. reflexivity.
Qed.
Lemma only_emit_case :
  emits_only_ctx (teqb (lit "l")) ec0 noparse /\ emits_only (teqb (lit "l")) scope_text = true /\
  emits_only_env (teqb (lit "l")) scope_env = true.
Proof. split; [apply ec0_emits_nothing|]. split; vm_compute; reflexivity. Qed.

(** ** C15 *)
Lemma outcome_unique ec parse x e s r1 r2 :
  finishes ec parse x e s r1 -> finishes ec parse x e s r2 -> r1 = r2.
Proof. apply finishes_det. Qed.
Lemma budget_case :
  yueval ec0 noparse 4%nat scope_text scope_env st0 = Fuel /\
  yueval ec0 noparse 20%nat scope_text scope_env st0
  = Ok (NRaw (lit "5,6,7"), [[(lit "a", NInt 1); (lit "l", NList [NInt 8])]], st0).
Proof. split; vm_compute; reflexivity. Qed.

(** ** C18: ($ (` 3 1 2) inc len?) *)
Definition numbers (l : list Z) : node := NList (map NInt l).
Lemma map_case :
  evals ec0 noparse (numbers [3; 1; 2]%Z) [] st0 (numbers [3; 1; 2]%Z) [] st0 /\
  evals ec0 noparse (call (numbers [3; 1; 2]%Z)
    [var "inc"; NLambda [([], name0 "x", NNone)] (NCond (call (var "eq") [call (var "x") []; NInt 2]) NNone (call (var "x") []))])
    [] st0 (numbers [4; 3]%Z) [] (add_hazard (name0 "inc") st0).
Proof. split; run 30%nat. Qed.

(** ** C19 *)
Lemma subscript_case :
  evals ec0 noparse (call (NInt (-1)) [numbers [3; 1; 2]%Z]) [] st0 (NInt 2) [] st0 /\
  evals ec0 noparse (call (NInt 1) [NInt 5; NInt 6]) [] st0 (NInt 6) [] st0 /\
  evals ec0 noparse (call (NInt 7) [numbers [3; 1; 2]%Z]) [] st0 NNone [] st0 /\
  indexed [numbers [3; 1; 2]%Z] (map NInt [3; 1; 2]%Z) /\ element (map NInt [3; 1; 2]%Z) (-1) (NInt 2).
Proof.
  split; [run 9%nat|]. split; [run 9%nat|]. split; [run 9%nat|]. split; [constructor; reflexivity|].
  apply (EL_from_end _ _ 0%nat); reflexivity.
Qed.
Lemma subscript_refutation :
  finishes ec0 noparse (call (NInt (-4)) [numbers [3; 1; 2]%Z]) [] st0
    (Err (Exn IndexError "list index out of range")).
Proof. split; [discriminate|]. run 9%nat. Qed.

(** ** C20: the branch not chosen would fail *)
Definition failing : node := NEmit (RList []) (name0 "nowhere") NNone.
Lemma failing_fails : finishes ec0 noparse failing [] st0 (Err (Exn TypeError "yueval: undefined variable")).
Proof. split; [discriminate|]. run 3%nat. Qed.
Lemma cond_case :
  evals ec0 noparse (call (var "eq") [NInt 2; NInt 2]) [] st0 (NInt 1) [] st0 /\
  selects (NInt 1) (NInt 5) failing (NInt 5) /\ selects (NRaw []) failing (NInt 6) (NInt 6) /\
  evals ec0 noparse (NCond (call (var "eq") [NInt 2; NInt 2]) (NInt 5) failing) [] st0 (NInt 5) [] st0.
Proof.
  split; [run 9%nat|]. split; [|split; [|run 9%nat]].
  - split; [reflexivity|]. left. split; [|reflexivity]. unfold false_value.
    intros [H|[H|[H|[H|[H|(t & H & _)]]]]]; discriminate H.
  - split; [reflexivity|]. right. split; [|reflexivity]. unfold false_value. auto.
Qed.

(** ** C21 *)
Lemma emit_case :
  let e := [[(lit "l", numbers [7; 8; 9]%Z); (lit "m", NInt 1)]] in
  let emit := NEmit (RList []) (name0 "l") NNone in
  lookup e (lit "l") = Some (NList (map NInt [7; 8; 9]%Z)) /\ Forall one_element (map NInt [7; 8; 9]%Z) /\
  evals ec0 noparse (NList (repeat emit 2%nat)) e st0 (numbers [7; 8]%Z)
    [[(lit "l", numbers [9]%Z); (lit "m", NInt 1)]] st0 /\
  evals ec0 noparse (NEmit (RList []) (name0 "l") (var "reversed")) e st0 (NInt 7)
    [[(lit "l", numbers [9; 8]%Z); (lit "m", NInt 1)]] st0.
Proof.
  cbn zeta. split; [reflexivity|]. split; [repeat constructor|]. split; run 12%nat.
Qed.

(** ** C22: main( before skip? ) library skips its tail, including a nested import *)
Lemma skip_case :
  let skip := call (var "skip") [] in
  evals ec0 noparse skip [] st0 NSkip [] st0 /\
  complete [words "b"; NImportBegin; words "c"; NImportEnd] /\
  evals ec0 noparse
    (NText [NImportBegin; words "a"; skip; words "b"; NImportBegin; words "c"; NImportEnd; NImportEnd; words "d"] 0 0)
    [] st0 (NRaw (lit "ad")) [] st0 /\
  never_closed [words "b"; NImportBegin; words "c"; NImportEnd].
Proof.
  assert (Hc : complete [words "b"; NImportBegin; words "c"; NImportEnd]).
  { constructor; [discriminate|discriminate|]. apply (CO_import [words "c"] []); [|constructor].
    constructor; [discriminate|discriminate|constructor]. }
  cbn zeta. split; [run 9%nat|]. split; [exact Hc|]. split; [run 12%nat|]. apply never_closed_complete, Hc.
Qed.

(** ** C06 *)
Lemma comment_case :
  evals ec0 noparse (NText [words "a"; NComment; words " b"] 0 0) [] st0 (NRaw (lit "ab")) [] st0 /\
  evals ec0 noparse (NT [words "a"; NComment; words " b"] IndFalse) [] st0 (NRaw (lit "a b")) [] st0.
Proof. split; run 9%nat. Qed.
(** ** C25 *)
Lemma list_case :
  let e := [[(lit "l", numbers [7; 8]%Z)]] in
  evals ec0 noparse (NList [NInt 1; NEmbed (var "l"); call (NInt 9) [numbers [5]%Z]; call (var "inc") [NInt 1]]) e st0
    (numbers [1; 7; 8; 2]%Z) e st0.
Proof. cbn zeta. run 9%nat. Qed.
(** ** C37 *)
Lemma passage_case :
  evals (ec_at true 1) noparse (call (var "__PASSAGE__") [NList [NRaw (lit "x"); NRaw (lit "y"); NRaw (lit "z")]]) [] st0
    (NRaw (lit "y")) [] (set_repeat true st0).
Proof. run 9%nat. Qed.
