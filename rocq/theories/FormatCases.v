(** Format strings, macros, list functions: wrappers and concrete cases (proofs only). *)
From Coq Require Import List NArith ZArith Bool String Lia ZifyBool ZifyNat ZifyN.
From Verif Require Import PyStr Ast Lex Parse Final Eval Builtin PyStrFacts EnvSpec EnvFacts EvalSpec EvalFacts EvalFacts2 EvalCases ApplyFacts ApplyFacts2 FormatSpec FormatFacts FormatFacts2 BuiltinSpec BuiltinFacts.
Import ListNotations.
Open Scope list_scope.

Lemma loose_dec t : find_sub (lit "($") t = None -> startswith (lit "$") t = false -> loose t.
Proof.
  intros H1 H2. split.
  - intros a b ->. pose proof (find_sub_none _ _ H1 (List.length a)) as E. rewrite skipn_length_app in E.
    rewrite startswith_app in E. discriminate E.
  - intros b ->. rewrite startswith_app in H2. discriminate H2.
Qed.
Lemma plain_dec n : has_char 40 n = false -> has_char 41 n = false -> plain_name n.
Proof. intros H1 H2. split; apply has_char_false; assumption. Qed.
Ltac loose := apply loose_dec; reflexivity.
Lemma no_close n : has_char 41 n = false -> ~ In 41%N n.
Proof. apply has_char_false. Qed.

(** ** C23 *)
Definition fmt_items : list fitem := [FLit (lit "int "); FMark (lit "name"); FLit (lit " = "); FMark (lit "0"); FLit (lit " + "); FMark (lit "1"); FLit (lit "; "); FMark (lit "other")].
Lemma fmt_written : written fmt_items = lit "int ($name) = ($0) + ($1); ($other)".
Proof. reflexivity. Qed.
Lemma fmt_readable : readable fmt_items.
Proof. repeat constructor; cbn [ok_item]; try loose; apply plain_dec; reflexivity. Qed.
Lemma gives_of {A} d k (v : A) : dict_get k d = Some v -> gives d k v.
Proof. apply dict_get_gives. Qed.
Lemma fmt_out : substituted (numbered 0 [lit "f(a)"; lit "2"] ++ [(lit "name", lit "x")]) fmt_items (lit "int x = f(a) + 2; ($other)").
Proof.
  apply (SU_lit _ (lit "int ") _ (lit "x = f(a) + 2; ($other)")). apply (SU_mark _ _ (lit "x") _ (lit " = f(a) + 2; ($other)")); [apply gives_of; reflexivity|].
  apply (SU_lit _ (lit " = ") _ (lit "f(a) + 2; ($other)")). apply (SU_mark _ _ (lit "f(a)") _ (lit " + 2; ($other)")); [apply gives_of; reflexivity|].
  apply (SU_lit _ (lit " + ") _ (lit "2; ($other)")). apply (SU_mark _ _ (lit "2") _ (lit "; ($other)")); [apply gives_of; reflexivity|].
  apply (SU_lit _ (lit "; ") _ (lit "($other)")). apply (SU_other _ (lit "other") [] []); [|constructor].
  cbn. intros H. repeat destruct H as [H|H]; try discriminate H. exact H.
Qed.
Lemma fmt_args : Forall2 shows [NStr (raw (lit "f(a)")); NInt 2] [lit "f(a)"; lit "2"] /\ Forall loose [lit "f(a)"; lit "2"; lit "x"].
Proof.
  split.
  - constructor; [apply (SH_str (raw (lit "f(a)")))|]. constructor; [apply (SH_int 2)|]. constructor.
  - repeat constructor; loose.
Qed.
Lemma fmt_case : evals ec0 noparse (NApply (NStr (raw (written fmt_items))) [NStr (raw (lit "f(a)")); NInt 2] [(raw (lit "name"), NStr (raw (lit "x")))] None 0) [] st0
  (NStr (raw (lit "int x = f(a) + 2; ($other)"))) [] st0.
Proof. run 9%nat. Qed.
Lemma fmt_again : evals ec0 noparse (NApply (NStr (raw (lit "($0)"))) [NStr (raw (lit "($1)")); NStr (raw (lit "x"))] [] None 0) [] st0
  (NStr (raw (lit "x"))) [] st0.
Proof. run 9%nat. Qed.
Lemma fmt_refuted : ~ (forall ec parse fn args file pos e s v items e1 s1 vs us e2 s2 out,
  evals ec parse fn e s v e1 s1 -> str_of v = Some (written items) -> (forall a, v <> NAtom a) -> readable items ->
  evals ec parse (NList args) e1 s1 (NList vs) e2 s2 -> Forall2 shows vs us -> vs <> [] ->
  substituted (numbered 0 us) items out ->
  evals ec parse (NApply fn args [] file pos) e s (NStr (raw out)) e2 s2).
Proof.
  intros H. specialize (H ec0 noparse (NStr (raw (lit "($0)"))) [NStr (raw (lit "($1)")); NStr (raw (lit "x"))] None 0%Z [] st0
    (NStr (raw (lit "($0)"))) [FMark (lit "0")] [] st0 [NStr (raw (lit "($1)")); NStr (raw (lit "x"))] [lit "($1)"; lit "x"] [] st0 (lit "($1)")).
  assert (E : evals ec0 noparse (NApply (NStr (raw (lit "($0)"))) [NStr (raw (lit "($1)")); NStr (raw (lit "x"))] [] None 0) [] st0 (NStr (raw (lit "($1)"))) [] st0).
  { apply H; clear H.
    - run 1%nat.
    - reflexivity.
    - discriminate.
    - constructor; [apply plain_dec; reflexivity|constructor].
    - run 3%nat.
    - constructor; [apply (SH_str (raw (lit "($1)")))|]. constructor; [apply (SH_str (raw (lit "x")))|constructor].
    - discriminate.
    - apply (SU_mark _ _ (lit "($1)") [] []); [apply gives_of; reflexivity|constructor]. }
  destruct (evals_det _ _ _ _ _ _ _ _ _ _ _ E fmt_again) as [K _]. discriminate K.
Qed.

(** ** C24 *)
(** a parser that returns the text as one piece *)
Definition echo : text -> M (list node) := fun key => bind get_st (fun st =>
  match dict_get key (y_source st) with Some (_, t) => ret [NPlain (raw t) IndNone false] | None => ret [] end).
Definition mac_items : list fitem := [FMark (lit "a"); FLit (lit " * ("); FMark (lit "b"); FLit (lit " + "); FMark (lit "a"); FLit (lit ")")].
Definition mac_closure : node := NMClosure (written mac_items) (fresh_frame [lit "a"; lit "b"]) (Some (raw (lit "m"))) None.
Lemma mac_defined : evals ec0 echo (NMacro (raw (lit "m")) [raw (lit "a"); raw (lit "b")] (written mac_items)) [] st0 (NEnv [(lit "m", mac_closure)]) [] st0.
Proof. run 3%nat. Qed.
Lemma mac_readable : readable mac_items.
Proof. repeat constructor; cbn [ok_item]; try loose; apply plain_dec; reflexivity. Qed.
Lemma mac_fn : evals ec0 echo (var "m") [[(lit "m", mac_closure)]] st0 mac_closure [[(lit "m", mac_closure)]] st0.
Proof. run 3%nat. Qed.
Lemma mac_args : Forall2 inserts [NInt 2; NAtom (raw (lit "x"))] [lit "2"; lit "x"] /\ Forall loose [lit "2"; lit "x"].
Proof.
  split.
  - constructor; [apply (IN_int 2)|]. constructor; [apply (IN_atom (raw (lit "x")))|]. constructor.
  - repeat constructor; loose.
Qed.
Lemma mac_out : substituted (combine [lit "a"; lit "b"] [lit "2"; lit "x"]) mac_items (lit "2 * (x + 2)").
Proof.
  apply (SU_mark _ _ (lit "2") _ (lit " * (x + 2)")); [apply gives_of; reflexivity|]. apply (SU_lit _ (lit " * (") _ (lit "x + 2)")).
  apply (SU_mark _ _ (lit "x") _ (lit " + 2)")); [apply gives_of; reflexivity|]. apply (SU_lit _ (lit " + ") _ (lit "2)")).
  apply (SU_mark _ _ (lit "2") _ (lit ")")); [apply gives_of; reflexivity|]. apply (SU_lit _ (lit ")") _ []). constructor.
Qed.
Lemma mac_case : exists e' s', evals ec0 echo (call (var "m") [NInt 2; NAtom (raw (lit "x"))]) [[(lit "m", mac_closure)]] st0
  (NPlain (raw (lit "2 * (x + 2)")) IndNone false) e' s'.
Proof. do 2 eexists. run 20%nat. Qed.
Lemma mac_again : exists e' s', evals ec0 echo (call (var "m") [NStr (raw (lit "($b)")); NAtom (raw (lit "x"))]) [[(lit "m", mac_closure)]] st0
  (NPlain (raw (lit "x * (x + x)")) IndNone false) e' s'.
Proof. do 2 eexists. run 20%nat. Qed.
Definition mac_bad : node := call (var "m") [NStr (raw (lit "($b)")); NAtom (raw (lit "x"))].
Definition mac_env : env := [[(lit "m", mac_closure)]].
Lemma mac_bad_args : evals ec0 echo (NList [NStr (raw (lit "($b)")); NAtom (raw (lit "x"))]) mac_env st0
  (NList [NStr (raw (lit "($b)")); NAtom (raw (lit "x"))]) mac_env st0.
Proof. run 4%nat. Qed.
Lemma mac_refuted : ~ (forall ec parse fn args file pos e s items ps d c0 e1 s1 vs us e2 s2 out,
  evals ec parse fn e s (NMClosure (written items) (map (fun p => (p, NBound)) ps) d c0) e1 s1 ->
  evals ec parse (NList args) e1 s1 (NList vs) e2 s2 -> Forall2 inserts vs us -> List.length vs = List.length ps ->
  NoDup ps -> ~ In (lit "__va_args__") ps -> readable items -> Forall (fun p => ~ In 41%N p) ps ->
  substituted (combine ps us) items out ->
  exists call, forall r, finishes ec parse (NApply fn args [] file pos) e s r <-> finishes ec parse (NEval (NRaw out) d call) e2 s2 r).
Proof.
  intros H. specialize (H ec0 echo (var "m") [NStr (raw (lit "($b)")); NAtom (raw (lit "x"))] None 0%Z mac_env st0 mac_items [lit "a"; lit "b"]
    (Some (raw (lit "m"))) None mac_env st0 [NStr (raw (lit "($b)")); NAtom (raw (lit "x"))] [lit "($b)"; lit "x"] mac_env st0 (lit "($b) * (x + ($b))") mac_fn mac_bad_args).
  destruct H as [c H].
  - constructor; [apply (IN_str (raw (lit "($b)")))|]. constructor; [apply (IN_atom (raw (lit "x")))|]. constructor.
  - reflexivity.
  - repeat constructor; cbn; [intros [E|[]]; discriminate E|intros []].
  - cbn. intros [E|[E|[]]]; discriminate E.
  - apply mac_readable.
  - repeat constructor; apply no_close; reflexivity.
  - apply (SU_mark _ _ (lit "($b)") _ (lit " * (x + ($b))")); [apply gives_of; reflexivity|]. apply (SU_lit _ (lit " * (") _ (lit "x + ($b))")).
    apply (SU_mark _ _ (lit "x") _ (lit " + ($b))")); [apply gives_of; reflexivity|]. apply (SU_lit _ (lit " + ") _ (lit "($b))")).
    apply (SU_mark _ _ (lit "($b)") _ (lit ")")); [apply gives_of; reflexivity|]. apply (SU_lit _ (lit ")") _ []). constructor.
  - destruct mac_again as (e' & s' & E). apply evals_fin in E. apply H in E. apply evals_fin in E.
    assert (F : exists e2 s2, evals ec0 echo (NEval (NRaw (lit "($b) * (x + ($b))")) (Some (raw (lit "m"))) c) mac_env st0
      (NPlain (raw (lit "($b) * (x + ($b))")) IndNone false) e2 s2) by (do 2 eexists; run 9%nat).
    destruct F as (e2 & s2 & F). destruct (evals_det _ _ _ _ _ _ _ _ _ _ _ E F) as [K _]. discriminate K.
Qed.
(** ** One parameter after the other *)
Lemma format_turns ec parse fn args named file pos e s v body e1 s1 vs us e2 s2 nm nu e3 s3 out :
  evals ec parse fn e s v e1 s1 -> str_of v = Some body -> (forall a, v <> NAtom a) ->
  evals ec parse (NList args) e1 s1 (NList vs) e2 s2 -> Forall2 shows vs us ->
  named_evals ec parse named e2 s2 nm e3 s3 -> Forall2 shows_named nm nu -> vs <> [] \/ named <> [] ->
  replaced_in_turn (numbered 0 us ++ nu) body out ->
  evals ec parse (NApply fn args named file pos) e s (NStr (raw out)) e3 s3.
Proof. intros H1 H2 H3 H4 H5 H6 H7 H8 H9. eapply format_in_turn; try eassumption. apply turn_spec, H9. Qed.
Lemma macro_turns ec parse fn args file pos e s body ps d c0 e1 s1 vs us e2 s2 out :
  evals ec parse fn e s (NMClosure body (map (fun p => (p, NBound)) ps) d c0) e1 s1 ->
  evals ec parse (NList args) e1 s1 (NList vs) e2 s2 -> Forall2 inserts vs us -> List.length vs = List.length ps ->
  NoDup ps -> ~ In (lit "__va_args__") ps -> replaced_in_turn (combine ps us) body out ->
  exists call, forall r, finishes ec parse (NApply fn args [] file pos) e s r <-> finishes ec parse (NEval (NRaw out) d call) e2 s2 r.
Proof. intros Hf Ha Hu Hl Hd Hva Hs. eexists. intros r. eapply macro_in_turn; try eassumption. apply turn_spec, Hs. Qed.
Lemma turn_of tab t u : replace_all tab t = u -> replaced_in_turn tab t u.
Proof. intros <-. destruct (turn_exists tab t) as [u H]. rewrite (turn_spec _ _ _ H). exact H. Qed.
Lemma turns_case : replaced_in_turn (numbered 0 [lit "($1)"; lit "x"]) (lit "($set a ($0))($(($1)))") (lit "($set a x)($(x))") /\
  replaced_in_turn (combine [lit "a"; lit "b"] [lit "($b)"; lit "x"]) (written mac_items) (lit "x * (x + x)").
Proof. split; apply turn_of; reflexivity. Qed.
Lemma macro_expands ec parse fn args file pos e s items ps d c0 e1 s1 vs us e2 s2 out :
  evals ec parse fn e s (NMClosure (written items) (map (fun p => (p, NBound)) ps) d c0) e1 s1 ->
  evals ec parse (NList args) e1 s1 (NList vs) e2 s2 -> Forall2 inserts vs us -> List.length vs = List.length ps ->
  NoDup ps -> ~ In (lit "__va_args__") ps -> readable items -> Forall (fun p => ~ In 41%N p) ps -> Forall loose us ->
  substituted (combine ps us) items out ->
  exists call, forall r, finishes ec parse (NApply fn args [] file pos) e s r <-> finishes ec parse (NEval (NRaw out) d call) e2 s2 r.
Proof.
  intros Hf Ha Hu Hl Hd Hva Hi Hp Hlu Hs. eexists. intros r. eapply macro_call; eassumption.
Qed.

(** ** C26 *)
Lemma standard0 name f : dict_get name core = Some f -> name <> lit "__FILE__" -> standard ec0 [] name.
Proof.
  intros Hf Hn. split; [constructor|]. intros im. cbn [e_builtin ec0 ec_at]. unfold builtin_with. cbn [dict_get].
  destruct (teqb_spec name (lit "__FILE__")); [contradiction|]. rewrite Hf. reflexivity.
Qed.
Lemma is_standard : standard ec0 [] (lit "index") /\ standard ec0 [] (lit "unique") /\ standard ec0 [] (lit "car").
Proof. repeat split; try constructor; intros im; reflexivity. Qed.
Section Named.
Variables (ec : ectx) (parse : text -> M (list node)) (e e2 : env) (s s2 : yst) (file : option text) (pos : Z) (a : source) (args : list node).
Notation result v s' := (evals ec parse (NApply (NVar (RList []) a) args [] file pos) e s v e2 s').
Notation arguments vs := (evals ec parse (NList args) e s (NList vs) e2 s2).
Lemma call_car_cdr l : (s_txt a = lit "car" \/ s_txt a = lit "cdr") -> standard ec e (s_txt a) -> arguments [NList l] -> is_term (NList l) = true ->
  exists c d, l = c ++ d /\ (l = [] \/ List.length c = 1%nat) /\ result (NList (if teqb (s_txt a) (lit "car") then c else d)) s2.
Proof.
  intros Hn Hs Ha Ht. exists (firstn 1 l), (skipn 1 l). split; [symmetry; apply firstn_skipn|]. split; [destruct l; [left; reflexivity|right; reflexivity]|].
  destruct Hn as [Hn|Hn]; rewrite Hn in *.
  - apply (call_builtin ec parse a (lit "car") b_car args [NList l] e s e2 s2 file pos (NList (firstn 1 l)) s2 Hn Hs eq_refl Ha); [cbn [is_term forallb] in *; rewrite Ht; reflexivity|reflexivity].
  - apply (call_builtin ec parse a (lit "cdr") b_cdr args [NList l] e s e2 s2 file pos (NList (skipn 1 l)) s2 Hn Hs eq_refl Ha); [cbn [is_term forallb] in *; rewrite Ht; reflexivity|reflexivity].
Qed.
Lemma call_reversed l : s_txt a = lit "reversed" -> standard ec e (s_txt a) -> arguments [NList l] -> is_term (NList l) = true ->
  exists w, List.length w = List.length l /\ (forall i, (i < List.length l)%nat -> nth_error w i = nth_error l (List.length l - 1 - i)) /\ result (NList w) s2.
Proof.
  intros Hn Hs Ha Ht. exists (rev l). split; [apply rev_length|]. split.
  - intros i Hi. rewrite <- (rev_involutive l) at 2. clear -Hi.
    assert (K : forall (l : list node) i, (i < List.length l)%nat -> nth_error (rev l) i = nth_error l (List.length l - 1 - i)).
    { clear. induction l as [|x l IH] using rev_ind; intros i Hi; [cbn in Hi; lia|]. rewrite rev_app_distr, app_length in *. cbn [rev app List.length] in *.
      destruct i as [|i]; cbn [nth_error].
      - rewrite nth_error_app2 by lia. replace (_ - _)%nat with 0%nat by lia. reflexivity.
      - rewrite IH by lia. rewrite nth_error_app1 by lia. f_equal. lia. }
    rewrite rev_involutive. apply K, Hi.
  - rewrite Hn in Hs. apply (call_builtin ec parse a (lit "reversed") b_reversed args [NList l] e s e2 s2 file pos (NList (rev l)) s2 Hn Hs eq_refl Ha); [cbn [is_term forallb] in *; rewrite Ht; reflexivity|reflexivity].
Qed.
Lemma call_len l : s_txt a = lit "len" -> standard ec e (s_txt a) -> arguments [NList l] -> is_term (NList l) = true ->
  result (NInt (Z.of_nat (List.length l))) s2.
Proof.
  intros Hn Hs Ha Ht. rewrite Hn in Hs. apply (call_builtin ec parse a (lit "len") b_len args [NList l] e s e2 s2 file pos (NInt (Z.of_nat (List.length l))) s2 Hn Hs eq_refl Ha); [cbn [is_term forallb] in *; rewrite Ht; reflexivity|reflexivity].
Qed.
Lemma call_index l v : s_txt a = lit "index" -> standard ec e (s_txt a) -> arguments [NList l; v] -> is_term (NList [NList l; v]) = true ->
  exists i, first_at l v i /\ result (NInt i) s2.
Proof.
  intros Hn Hs Ha Ht. rewrite Hn in Hs. eexists. split; [apply index_first|].
  apply (call_builtin ec parse a (lit "index") b_index args [NList l; v] e s e2 s2 file pos (opt_index (index_of v l)) s2 Hn Hs eq_refl Ha Ht). reflexivity.
Qed.
Lemma call_rindex l v : s_txt a = lit "rindex" -> standard ec e (s_txt a) -> arguments [NList l; v] -> is_term (NList [NList l; v]) = true ->
  exists i, last_at l v i /\ result (NInt i) s2.
Proof.
  intros Hn Hs Ha Ht. rewrite Hn in Hs. destruct (rindex_last l v s2) as (i & E & H). exists i. split; [exact H|].
  apply (call_builtin ec parse a (lit "rindex") b_rindex args [NList l; v] e s e2 s2 file pos (NInt i) s2 Hn Hs eq_refl Ha Ht E).
Qed.
Lemma call_range x y d : s_txt a = lit "range" -> standard ec e (s_txt a) -> arguments [NInt x; NInt y; NInt d] -> d <> 0%Z ->
  (0 < d -> x <= y)%Z -> (d < 0 -> x >= y)%Z -> exists w, counts x y d w /\ result (NList w) s2.
Proof.
  intros Hn Hs Ha Hd H1 H2. rewrite Hn in Hs. exists (py_range x y d). split; [apply range_counts; assumption|].
  apply (call_builtin ec parse a (lit "range") b_range args [NInt x; NInt y; NInt d] e s e2 s2 file pos (NList (py_range x y d)) s2 Hn Hs eq_refl Ha eq_refl).
  unfold b_range. cbn [map int_of]. replace (d =? 0)%Z with false by lia. reflexivity.
Qed.
Lemma call_unique l : s_txt a = lit "unique" -> standard ec e (s_txt a) -> arguments [NList l] -> is_term (NList l) = true -> Forall simple l ->
  exists w, first_occurrences (y_unique s2) l w /\ result (NList w) (set_unique (y_unique s2 ++ w) s2).
Proof.
  intros Hn Hs Ha Ht Hl. rewrite Hn in Hs. destruct (unique_run l Hl [] s2) as (w & H1 & H2). exists w. split; [exact H1|].
  apply (call_builtin ec parse a (lit "unique") b_unique args [NList l] e s e2 s2 file pos (NList w) (set_unique (y_unique s2 ++ w) s2) Hn Hs eq_refl Ha).
  - cbn [is_term forallb] in *. rewrite Ht. reflexivity.
  - unfold b_unique, arg1. cbn [py_iter list_of]. unfold bind. rewrite H2. reflexivity.
Qed.
End Named.
Lemma unique_first_call : exists s', evals ec0 noparse (call (var "unique") [NList [NInt 1; NInt 2; NInt 1]]) [] st0 (NList [NInt 1; NInt 2]) [] s' /\
  evals ec0 noparse (call (var "unique") [NList [NInt 2; NInt 3; NInt 3]]) [] s' (NList [NInt 3]) [] (set_unique [NInt 1; NInt 2; NInt 3] st0).
Proof. eexists. split; [run 9%nat|run 9%nat]. Qed.
Lemma unique_refuted : ~ (forall ec parse e s e2 s2 file pos a args l, s_txt a = lit "unique" -> standard ec e (s_txt a) ->
  evals ec parse (NList args) e s (NList [NList l]) e2 s2 -> is_term (NList l) = true -> Forall simple l ->
  exists w s3, first_occurrences [] l w /\ evals ec parse (NApply (NVar (RList []) a) args [] file pos) e s (NList w) e2 s3).
Proof.
  intros H. specialize (H ec0 noparse [] (set_unique [NInt 1] st0) [] (set_unique [NInt 1] st0) None 0%Z (raw (lit "unique")) [NList [NInt 1]] [NInt 1] eq_refl).
  destruct H as (w & s3 & Hw & E).
  - apply is_standard.
  - run 3%nat.
  - reflexivity.
  - constructor; [right; right; left; exists 1%Z; constructor|constructor].
  - assert (F : evals ec0 noparse (NApply (NVar (RList []) (raw (lit "unique"))) [NList [NInt 1]] [] None 0) [] (set_unique [NInt 1] st0) (NList []) [] (set_unique [NInt 1] st0)) by (run 9%nat).
    destruct (evals_det _ _ _ _ _ _ _ _ _ _ _ E F) as [K _]. injection K as ->. inversion Hw; subst. contradiction.
Qed.
Lemma index_case : evals ec0 noparse (call (var "index") [NList [NInt 5; NStr (raw (lit "x")); NInt 5]; NInt 5]) [] st0 (NInt 0) [] st0 /\
  evals ec0 noparse (call (var "rindex") [NList [NInt 5; NStr (raw (lit "x")); NInt 5]; NInt 5]) [] st0 (NInt 2) [] st0 /\
  evals ec0 noparse (call (var "index") [NList [NInt 5; NStr (raw (lit "x")); NInt 5]; NInt 6]) [] st0 (NInt (-1)) [] st0.
Proof. repeat split; run 9%nat. Qed.
Lemma split_case : evals ec0 noparse (call (var "car") [NList [NInt 5; NInt 6; NInt 7]]) [] st0 (NList [NInt 5]) [] st0 /\
  evals ec0 noparse (call (var "cdr") [NList [NInt 5; NInt 6; NInt 7]]) [] st0 (NList [NInt 6; NInt 7]) [] st0 /\
  evals ec0 noparse (call (var "reversed") [NList [NInt 5; NInt 6; NInt 7]]) [] st0 (NList [NInt 7; NInt 6; NInt 5]) [] st0 /\
  evals ec0 noparse (call (var "range") [NInt 5; NInt 0; NInt (-2)]) [] st0 (NList [NInt 5; NInt 3; NInt 1]) [] st0.
Proof. repeat split; run 9%nat. Qed.
