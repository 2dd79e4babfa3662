(** * Runs on text in which every construct is protected *)
From Coq Require Import List NArith ZArith Bool Lia ZifyBool ZifyNat ZifyN String.
From Verif Require Import PyStr PyStrFacts Ast Lex LexSpec LexFacts LexFacts2 Parse ParseSpec ParseFacts ParseFacts3 Final FinalFacts Eval Builtin Loc Shell EnvSpec EnvFacts CodecFacts PpSpec Pp PpFacts PpFacts2 HeaderFacts PpFacts3 PpCases ProtectSpec ProtectFacts.
Import ListNotations.
Open Scope N_scope.

Lemma steady_same t t' : unified t t' -> ~ In 254 t -> ~ In 255 t -> replace_steady t' = t'.
Proof.
  intros U N1 N2. rewrite steady_map. rewrite <- (map_id t') at 2. apply map_ext_in. intros c Hc.
  destruct (N.eqb_spec c 254) as [->|]; [exfalso; apply N1; eapply unified_in; eauto; discriminate|].
  destruct (N.eqb_spec c 255) as [->|]; [exfalso; apply N2; eapply unified_in; eauto; discriminate|]. reflexivity.
Qed.
Lemma run_protected w cfg d n t input output pr tail : k_browse cfg = false ->
  (is_python output = true -> no_magic is_word (unify_eol t)) ->
  tail = [] \/ unclosed (skip_of cfg (is_python output)) tail ->
  protected (is_python output) (skip_of cfg (is_python output)) tail (unify_eol t) ->
  pp w cfg (S d) (S (S (S n))) t input output pr =
    if match tail with [] => true | _ => false end then Ok (ok_run cfg (unify_eol t)) else Ok (failed []).
Proof.
  intros B M Ht P. unfold pp. set (cx := run_ctx w cfg input output) in *. set (s0 := run_start t input output pr).
  assert (D : exists dl, dict_get (input_key input) (y_source s0) = Some (dl, unify_eol t)).
  { eexists. unfold s0, run_start. cbn [y_source]. rewrite dict_get_set', teqb_refl. reflexivity. }
  destruct D as [dl D].
  assert (H : no_header cx (input_key input) (unify_eol t)).
  { destruct (is_python output) eqn:Py; [apply no_magic_no_header, M; reflexivity|left; exact Py]. }
  pose proof (parse_protected cx d (input_key input) s0 dl (unify_eol t) tail Ht P H D) as K.
  destruct (yuparse cx (S d) (input_key input) s0) as [[l s']|e|].
  - destruct K as (-> & S & ->). rewrite (eval_pieces (run_ectx w cfg input output pr) _ n l (unify_eol t) _ _ _ _ B S). reflexivity.
  - destruct tail; [congruence|reflexivity].
  - contradiction.
Qed.
Lemma protected_run w cfg d n t input output pr : k_browse cfg = false -> k_reduce cfg = false -> ~ In 254 t -> ~ In 255 t ->
  exists t', unified t t' /\
    ((is_python output = true -> no_magic is_word t') -> protected (is_python output) (skip_of cfg (is_python output)) [] t' ->
     pp w cfg (S d) (S (S (S n))) t input output pr = Ok (PP true t' None None false 0)).
Proof.
  intros B Rd N1 N2. exists (unify_eol t). pose proof (unify_eol_unified t) as U. split; [exact U|]. intros M P.
  rewrite (run_protected w cfg d n t input output pr [] B M (or_introl eq_refl) P). unfold ok_run. rewrite Rd. cbn [reduce_emptiness].
  do 2 f_equal. apply (steady_same t _ U N1 N2).
Qed.
Lemma unclosed_run w cfg d n t input output pr : k_browse cfg = false ->
  exists t', unified t t' /\ forall tail, (is_python output = true -> no_magic is_word t') ->
    unclosed (skip_of cfg (is_python output)) tail -> protected (is_python output) (skip_of cfg (is_python output)) tail t' ->
     pp w cfg (S d) (S (S (S n))) t input output pr = Ok (PP false [] None None false 0).
Proof.
  intros B. exists (unify_eol t). split; [apply unify_eol_unified|]. intros tail M U P.
  rewrite (run_protected w cfg d n t input output pr tail B M (or_intror U) P).
  destruct U as [_ (b & -> & _)]. reflexivity.
Qed.

(** ** A source *)
Lemma no_ends b : forallb (fun c => negb (ps_EOL c)) b = true -> Forall (fun c => ~ line_end c) b.
Proof.
  intros H. rewrite forallb_forall in H. apply Forall_forall. intros c Hc. specialize (H c Hc).
  rewrite <- ps_EOL_spec. destruct (ps_EOL c); [discriminate|congruence].
Qed.
Definition guarded_source : text := lit "x = ""($a)""; // ($set a 1" ++ [10] ++ lit "/* (` */ y".
Ltac no_begin := let r := fresh in let E := fresh in intros [r E]; discriminate E.
Ltac char := apply pr_char; [apply ps_ANY_spec; reflexivity|discriminate|discriminate|no_begin|no_begin|intros [[r E]|[r E]]; discriminate E|discriminate|].
Lemma guarded_case : protected false SkipC [] guarded_source.
Proof.
  unfold guarded_source. change (lit "x = ""($a)""; // ($set a 1" ++ [10] ++ lit "/* (` */ y")
    with (lit "x = " ++ 34 :: lit "($a)" ++ 34 :: lit "; " ++ (lit "//" ++ lit " ($set a 1") ++ 10 :: (lit "/*" ++ lit " (` " ++ lit "*/") ++ lit " y").
  do 4 char. apply pr_literal; [reflexivity|auto|repeat (apply li_char; [discriminate|discriminate|]); constructor|].
  do 2 char. apply pr_comment.
  { apply tc_line; [|right; exists 10; eexists; split; [reflexivity|left; reflexivity]]. apply no_ends. reflexivity. }
  char. apply pr_comment; [apply tc_block; absent|]. do 2 char. constructor.
Qed.
Lemma guarded_run_case : protected false (skip_of (config0 1 false false) (is_python (Some (lit "a.c")))) [] guarded_source /\
  ~ In 254 guarded_source /\ ~ In 255 guarded_source /\
  pp world0 (config0 1 false false) 1 4 guarded_source (Some (lit "a.yu-c")) (Some (lit "a.c")) process0 =
    Ok (PP true guarded_source None None false 0).
Proof. split; [exact guarded_case|]. split; [missing|]. split; [missing|]. vm_compute. reflexivity. Qed.
Lemma unclosed_case : unclosed SkipC (lit "/* ($x)") /\ protected false SkipC (lit "/* ($x)") (lit "a " ++ lit "/* ($x)").
Proof.
  split; [split; [reflexivity|exists (lit " ($x)"); split; [reflexivity|absent]]|].
  change (protected false SkipC (lit "/* ($x)") (97 :: 32 :: lit "/* ($x)")). do 2 char. constructor.
Qed.
Lemma literal_run w cfg d n t input output pr : k_browse cfg = false -> k_reduce cfg = false -> k_skip cfg = 0%Z -> is_python output = false ->
  ~ In 254 t -> ~ In 255 t ->
  exists t', unified t t' /\
    (protected false SkipNone [] t' -> pp w cfg (S d) (S (S (S n))) t input output pr = Ok (PP true t' None None false 0)).
Proof.
  intros B Rd Sk Py N1 N2. destruct (protected_run w cfg d n t input output pr B Rd N1 N2) as (t' & U & H). exists t'. split; [exact U|].
  intros P. apply H; [congruence|]. rewrite Py. unfold skip_of. rewrite Sk. exact P.
Qed.
Lemma literal_case : protected false SkipNone [] (lit "s = ""($a \"" '"" ;") /\ literal_inside 34 (lit "($a \"" '").
Proof.
  assert (L : literal_inside 34 (lit "($a \"" '")).
  { do 4 (apply li_char; [discriminate|discriminate|]). apply li_escape; [discriminate|].
    do 2 (apply li_char; [discriminate|discriminate|]). constructor. }
  split; [|exact L]. change (lit "s = ""($a \"" '"" ;") with (115 :: 32 :: 61 :: 32 :: 34 :: lit "($a \"" '" ++ 34 :: 32 :: [59]).
  Ltac char0 := apply pr_char; [apply ps_ANY_spec; reflexivity|discriminate|discriminate|no_begin|no_begin|intros []|discriminate|].
  do 4 char0. apply pr_literal; [reflexivity|auto|exact L|]. do 2 char0. constructor.
Qed.
