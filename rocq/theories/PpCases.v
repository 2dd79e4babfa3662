(** * Concrete runs *)
From Coq Require Import List NArith ZArith Bool Lia ZifyBool ZifyNat ZifyN String.
From Verif Require Import PyStr PyStrFacts Ast Lex LexSpec LexFacts LexFacts2 Parse ParseSpec ParseFacts ParseFacts3 Final FinalFacts Eval Builtin Loc Shell EnvSpec EnvFacts CodecFacts PpSpec Pp PpFacts PpFacts2 HeaderFacts PpFacts3.
Import ListNotations.
Open Scope N_scope.

(** An outside world without files and scripts *)
Definition world0 : world :=
  World (fun _ => None) (fun t => t) (fun _ => Err (Exn IOError "")) (fun _ => Err (Exn ValueError "")) (fun _ => [])
        (fun _ _ => None) (fun _ => None) (fun _ => Err (Exn SyntaxError "")) (fun _ _ => Err (Exn KeyError ""))
        (fun t => t) (fun _ => 0%Z) (fun _ => []) (lit "lib") (fun _ _ _ => lit "{}").
(** Nothing is cleaned up; [skip] and [browse] as given *)
Definition config0 (skip : Z) (reduce browse : bool) : config := Config skip true reduce browse [] [] 0.
Definition process0 : process := Proc [] [].

Lemma occurs_sound p t : occurs p t -> existsb (fun i => startswith p (skipn i t)) (List.seq 0 (S (List.length t))) = true.
Proof.
  intros (a & b & ->). apply existsb_exists. exists (List.length a). split.
  - apply in_seq. rewrite app_length. lia.
  - rewrite skipn_length_app. apply startswith_app.
Qed.
Ltac absent := let H := fresh in intros H; apply occurs_sound in H; vm_compute in H; discriminate.
Lemma permitted_by_chars t : forallb ps_ANY t = true -> Forall permitted t.
Proof. apply (forallb_Forall ps_ANY permitted), ps_ANY_spec. Qed.

(** ** Plain text *)
Definition c_source : text := lit "int x[] = { '\'', ""a(b"" };" ++ [13; 10; 9] ++ lit "f(x); // (done" ++ [10] ++ lit "/* it's".
Lemma c_source_plain : plain_text c_source.
Proof. split; [|split; absent]. apply permitted_by_chars. reflexivity. Qed.
Lemma plain_run w cfg d n t input output pr : plain_text t -> is_python output = false -> k_skip cfg = 0%Z ->
  k_browse cfg = false -> k_reduce cfg = false -> ~ In 254 t -> ~ In 255 t ->
  exists t', unified t t' /\ pp w cfg (S d) (S (S (S n))) t input output pr = Ok (PP true t' None None false 0).
Proof.
  intros P Py Sk B Rd N1 N2. exists (unify_eol t). split; [apply unify_eol_unified|].
  assert (H : no_header (run_ctx w cfg input output) (input_key input) (unify_eol t)) by (left; exact Py).
  destruct (run_plain w cfg d n t input output pr P B H) as [->|[F _]].
  - unfold ok_run. rewrite Rd. cbn [reduce_emptiness]. do 2 f_equal.
    pose proof (unify_eol_unified t) as U. rewrite steady_map.
    rewrite <- (map_id (unify_eol t)) at 2. apply map_ext_in. intros c Hc.
    destruct (N.eqb_spec c 254) as [->|]; [exfalso; apply N1; eapply unified_in; eauto; discriminate|].
    destruct (N.eqb_spec c 255) as [->|]; [exfalso; apply N2; eapply unified_in; eauto; discriminate|]. reflexivity.
  - exfalso. destruct F as [[F _]|[F _]]; cbn [run_ctx c_python c_skip] in F.
    + congruence.
    + unfold skip_of in F. rewrite Sk in F. discriminate.
Qed.

Lemma never_altered w cfg d n t input output pr : plain_text t -> is_python output = false -> k_browse cfg = false ->
  exists t', unified t t' /\
    (pp w cfg (S d) (S (S (S n))) t input output pr = Ok (PP true (replace_steady (reduce_emptiness (k_reduce cfg) t')) None None false 0)
     \/ (skip_of cfg (is_python output) = SkipC /\ occurs (lit "/*") t /\
         pp w cfg (S d) (S (S (S n))) t input output pr = Ok (PP false [] None None false 0))).
Proof.
  intros P Py B. exists (unify_eol t). split; [apply unify_eol_unified|].
  assert (H : no_header (run_ctx w cfg input output) (input_key input) (unify_eol t)) by (left; exact Py).
  destruct (run_plain w cfg d n t input output pr P B H) as [->|[F ->]]; [left; reflexivity|right].
  destruct F as [[F _]|[F O]]; cbn [run_ctx c_python c_skip] in F; [congruence|]. auto.
Qed.
Lemma plain_run_browse w cfg d n t input output pr : plain_text t -> is_python output = false -> k_skip cfg = 0%Z ->
  k_browse cfg = true -> k_reduce cfg = false -> ~ In 254 t -> ~ In 255 t -> all_digits (input_key input) = false ->
  exists t' j, unified t t' /\ pp w cfg (S d) (S (S (S n))) t input output pr = Ok (PP true t' (Some j) None false 0).
Proof.
  intros P Py Sk B Rd N1 N2 A. exists (unify_eol t).
  assert (H : no_header (run_ctx w cfg input output) (input_key input) (unify_eol t)) by (left; exact Py).
  destruct (run_plain_browse w cfg d n t input output pr P B A H) as [[j ->]|[F _]].
  - exists j. split; [apply unify_eol_unified|]. rewrite Rd. cbn [reduce_emptiness_browse r_txt res_of]. do 2 f_equal.
    pose proof (unify_eol_unified t) as U. rewrite steady_map.
    rewrite <- (map_id (unify_eol t)) at 2. apply map_ext_in. intros c Hc.
    destruct (N.eqb_spec c 254) as [->|]; [exfalso; apply N1; eapply unified_in; eauto; discriminate|].
    destruct (N.eqb_spec c 255) as [->|]; [exfalso; apply N2; eapply unified_in; eauto; discriminate|]. reflexivity.
  - exfalso. destruct F as [[F _]|[F _]]; cbn [run_ctx c_python c_skip] in F.
    + congruence.
    + unfold skip_of in F. rewrite Sk in F. discriminate.
Qed.
Lemma tree_spells cx d key s decl t l s' : plain_text t -> c_python cx = false \/ key <> c_main cx \/ no_magic is_word t ->
  dict_get key (y_source s) = Some (decl, t) -> yuparse cx (S d) key s = Ok (l, s') -> s' = s /\ spells l t.
Proof.
  intros P H D E. assert (H' : no_header cx key t).
  { destruct H as [H|[H|H]]; [left; exact H|right; left; exact H|right; right; intros; apply no_magic_header, H]. }
  pose proof (parse_plain_text cx d key s decl t P H' D) as K. rewrite E in K. exact K.
Qed.
Lemma tree_exists cx d key s decl t : plain_text t -> c_python cx = false -> c_skip cx <> SkipC \/ ~ occurs (lit "/*") t ->
  dict_get key (y_source s) = Some (decl, t) -> exists l, yuparse cx (S d) key s = Ok (l, s) /\ spells l t.
Proof.
  intros P H F D. pose proof (parse_plain_text cx d key s decl t P (or_introl H) D) as K.
  destruct (yuparse cx (S d) key s) as [[l s']|e|]; [|exfalso|contradiction].
  - destruct K as [-> S]. eauto.
  - destruct K as [[K _]|[K O]]; [congruence|]. tauto.
Qed.

(** ** Magic comment *)
Definition py_source : text := lit "#!/usr/bin/python" ++ [10] ++ lit "# -*- coding: yupp.utf-8 -*-" ++ [10] ++ lit "x = [1]" ++ [10].
Lemma without_enc_first r z : coding_then r z -> word_ends is_word z -> (forall c z', z <> 46 :: c :: z' \/ enc_char c = false) ->
  without_encoding is_word r.
Proof.
  intros C W N. split; [|eauto]. intros (z1 & enc & z' & C1 & E & Ne & F & _). rewrite (coding_then_fun _ _ _ C C1) in N.
  destruct enc as [|c enc]; [congruence|]. inversion F; subst. cbn in N. destruct (N c (enc ++ z')) as [X|X]; [congruence|].
  apply enc_char_spec in H1. congruence.
Qed.
Lemma magic_by_search b c : coding_search c = Some b -> magic is_word (if b then with_encoding is_word else without_encoding is_word) c.
Proof. intros H. apply coding_search_some in H. destruct b; exact H. Qed.
Lemma not_magic_by_search c : coding_search c = None -> not_magic is_word c.
Proof. apply coding_search_none. Qed.
Lemma comment_by_chars body rest : forallb (fun c => negb (ps_EOL c)) body = true ->
  match rest with [] => true | x :: _ => ps_EOL x end = true -> comment_line (35 :: body) rest.
Proof.
  intros H R. split.
  - exists body. split; [reflexivity|]. rewrite forallb_forall in H. apply Forall_forall. intros c Hc. specialize (H c Hc).
    rewrite <- ps_EOL_spec. destruct (ps_EOL c); [discriminate|congruence].
  - destruct rest; [exact I|]. apply ps_EOL_spec, R.
Qed.
Lemma header_kept t kept rest n : forall word, header word t kept rest n -> incl (kept ++ rest) t.
Proof.
  assert (K : forall word c kept, kept_of word c kept -> incl kept c).
  { intros word c k [c0 _|a b _ _]; [intros x []|]. intros x Hx. apply in_app_or in Hx. apply in_or_app. destruct Hx; [auto|right; apply in_or_app; auto]. }
  intros word [sp c r k _ _ H|sp e sp' c r k _ _ _ _ H|sp sb e sp' c r k _ _ _ _ _ _ H]; apply K in H; intros x Hx;
    repeat first [rewrite in_app_iff in *|cbn [In app] in *]; specialize (H x); tauto.
Qed.
Lemma py_source_header : header is_word py_source (lit "#!/usr/bin/python" ++ [10] ++ lit "# -*- coding: utf-8 -*-") ([10] ++ lit "x = [1]" ++ [10]) 2.
Proof.
  apply (header_second is_word [] (lit "#!/usr/bin/python") 10 [] (lit "# -*- coding: yupp.utf-8 -*-") ([10] ++ lit "x = [1]" ++ [10]) (lit "# -*- coding: utf-8 -*-")).
  - constructor.
  - apply comment_by_chars; reflexivity.
  - apply not_magic_by_search. reflexivity.
  - left. reflexivity.
  - constructor.
  - apply comment_by_chars; reflexivity.
  - apply (kept_encoding is_word (lit "# -*- coding: ") (lit "utf-8 -*-")).
    + apply (magic_by_search true). reflexivity.
    + intros a' b' E. destruct (Nat.lt_ge_cases (List.length a') 14) as [L|L]; [|exact L]. exfalso.
      assert (X : startswith (lit "yupp.") (skipn (List.length a') (lit "# -*- coding: " ++ lit "yupp." ++ lit "utf-8 -*-")) = true).
      { rewrite E, skipn_length_app. apply startswith_app. }
      do 14 (destruct a' as [|? a']; [vm_compute in X; discriminate|]). cbn [List.length] in L. lia.
Qed.
Lemma header_run w cfg d n t input output pr : is_python output = true -> k_browse cfg = false -> k_reduce cfg = false ->
  k_skip cfg = 0%Z -> ~ In 254 t -> ~ In 255 t ->
  exists t', unified t t' /\ forall kept rest ln, header is_word t' kept rest ln -> rest <> [] -> plain_text rest ->
    ~ In 34 rest -> ~ In 39 rest ->
    pp w cfg (S d) (S (S (S n))) t input output pr = Ok (PP true (kept ++ rest) None None false ln).
Proof.
  intros Py B Rd Sk N1 N2. exists (unify_eol t). pose proof (unify_eol_unified t) as U. split; [exact U|].
  intros kept rest ln H R P Q1 Q2.
  destruct (run_header w cfg d n t input output pr kept rest ln Py B H R P) as [->|[F _]].
  - rewrite Rd. cbn [reduce_emptiness]. do 2 f_equal. rewrite steady_map.
    rewrite <- (map_id (kept ++ rest)) at 2. apply map_ext_in. intros c Hc.
    assert (I : In c (unify_eol t)) by (apply (header_kept _ _ _ _ _ H), Hc).
    destruct (N.eqb_spec c 254) as [->|]; [exfalso; apply N1; eapply unified_in; eauto; discriminate|].
    destruct (N.eqb_spec c 255) as [->|]; [exfalso; apply N2; eapply unified_in; eauto; discriminate|]. reflexivity.
  - exfalso. destruct F as [[_ [F|F]]|[F _]]; cbn [run_ctx c_python c_skip] in *; try contradiction.
    unfold skip_of in F. rewrite Sk in F. discriminate.
Qed.
Lemma left_alone w cfg d n t input output pr : plain_text t -> k_browse cfg = false -> k_reduce cfg = false ->
  k_skip cfg = 0%Z -> ~ In 254 t -> ~ In 255 t -> ~ In 34 t -> ~ In 39 t ->
  exists t', unified t t' /\
    (no_magic is_word t' -> pp w cfg (S d) (S (S (S n))) t input output pr = Ok (PP true t' None None false 0)).
Proof.
  intros P B Rd Sk N1 N2 Q1 Q2. exists (unify_eol t). pose proof (unify_eol_unified t) as U. split; [exact U|]. intros M.
  destruct (run_plain w cfg d n t input output pr P B (no_magic_no_header _ _ _ _ _ M)) as [->|[F _]].
  - unfold ok_run. rewrite Rd. cbn [reduce_emptiness]. do 2 f_equal. rewrite steady_map.
    rewrite <- (map_id (unify_eol t)) at 2. apply map_ext_in. intros c Hc.
    destruct (N.eqb_spec c 254) as [->|]; [exfalso; apply N1; eapply unified_in; eauto; discriminate|].
    destruct (N.eqb_spec c 255) as [->|]; [exfalso; apply N2; eapply unified_in; eauto; discriminate|]. reflexivity.
  - exfalso. destruct F as [[_ [F|F]]|[F _]]; cbn [run_ctx c_python c_skip] in *; try contradiction.
    unfold skip_of in F. rewrite Sk in F. discriminate.
Qed.
Definition py_out : option text := Some (lit "a.py").
Definition py_in : option text := Some (lit "a.yu-py").
Lemma case_refuted : exists body rest,
  magic is_word (with_encoding is_word) (35 :: body) /\ comment_line (35 :: body) rest /\ rest <> [] /\ plain_text rest /\
  exists out, pp world0 (config0 0 false false) 1 4 (35 :: body ++ rest) py_in py_out process0 =
    Ok (PP true out None None false 1) /\ (List.length (35%N :: body ++ rest) < List.length out)%nat.
Proof.
  exists (lit " coding: YUPP.utf8"), ([10] ++ lit "x" ++ [10]). split; [apply (magic_by_search true); reflexivity|].
  split; [apply comment_by_chars; reflexivity|]. split; [discriminate|].
  split; [split; [|split; absent]; apply permitted_by_chars; reflexivity|].
  eexists. split; [vm_compute; reflexivity|]. vm_compute. repeat constructor.
Qed.
Lemma blank_line_refuted : exists a c rest kept, kept_of is_word c kept /\ comment_line c rest /\ plain_text rest /\
  rest <> [] /\ Forall line_end a /\
  pp world0 (config0 0 false false) 1 4 (a ++ c ++ rest) py_in py_out process0 =
    Ok (PP true (kept ++ rest) None None false 2) /\ a ++ kept ++ rest <> kept ++ rest.
Proof.
  exists [10], (lit "# coding: yupp"), ([10] ++ lit "x" ++ [10]), []. split; [apply kept_nothing, (magic_by_search false); reflexivity|].
  split; [apply comment_by_chars; reflexivity|].
  split; [split; [|split; absent]; apply permitted_by_chars; reflexivity|].
  split; [discriminate|]. split; [repeat constructor|]. split; [vm_compute; reflexivity|discriminate].
Qed.
Lemma missing_by_chars c t : existsb (N.eqb c) t = false -> ~ In c t.
Proof. intros H I. assert (E : existsb (N.eqb c) t = true) by (apply existsb_exists; exists c; split; [exact I|apply N.eqb_refl]). congruence. Qed.
Ltac missing := apply missing_by_chars; vm_compute; reflexivity.
Lemma plain_case : plain_text c_source /\ is_python (Some (lit "a.c")) = false /\ ~ In 254 c_source /\ ~ In 255 c_source /\
  pp world0 (config0 0 false false) 1 4 c_source (Some (lit "a.yu-c")) (Some (lit "a.c")) process0 =
    Ok (PP true (lit "int x[] = { '\'', ""a(b"" };" ++ [10; 9] ++ lit "f(x); // (done" ++ [10] ++ lit "/* it's") None None false 0).
Proof.
  split; [exact c_source_plain|]. split; [reflexivity|].
  split; [missing|].
  split; [missing|vm_compute; reflexivity].
Qed.
Lemma skip_case : plain_text c_source /\ skip_of (config0 1 false false) (is_python (Some (lit "a.c"))) = SkipC /\
  pp world0 (config0 1 false false) 1 4 c_source (Some (lit "a.yu-c")) (Some (lit "a.c")) process0 =
    Ok (PP false [] None None false 0).
Proof. split; [exact c_source_plain|]. split; vm_compute; reflexivity. Qed.
Lemma browse_case : all_digits (input_key (Some (lit "a.yu-c"))) = false /\
  pp world0 (config0 0 false true) 1 4 c_source (Some (lit "a.yu-c")) (Some (lit "a.c")) process0 =
    Ok (PP true (lit "int x[] = { '\'', ""a(b"" };" ++ [10; 9] ++ lit "f(x); // (done" ++ [10] ++ lit "/* it's") (Some (lit "{}")) None false 0).
Proof. split; vm_compute; reflexivity. Qed.
Lemma header_case : header is_word py_source (lit "#!/usr/bin/python" ++ [10] ++ lit "# -*- coding: utf-8 -*-") ([10] ++ lit "x = [1]" ++ [10]) 2 /\
  plain_text ([10] ++ lit "x = [1]" ++ [10]) /\ is_python py_out = true /\
  pp world0 (config0 0 false false) 1 4 py_source py_in py_out process0 =
    Ok (PP true (lit "#!/usr/bin/python" ++ [10] ++ lit "# -*- coding: utf-8 -*-" ++ [10] ++ lit "x = [1]" ++ [10]) None None false 2).
Proof.
  split; [exact py_source_header|]. split; [split; [|split; absent]; apply permitted_by_chars; reflexivity|]. split; vm_compute; reflexivity.
Qed.
Lemma only_header_case : header is_word (unify_eol (lit "# coding: yupp")) [] [] 1.
Proof.
  change (unify_eol (lit "# coding: yupp")) with ([] ++ lit "# coding: yupp" ++ []). apply header_first; [constructor| |].
  - apply comment_by_chars; reflexivity.
  - apply kept_nothing, (magic_by_search false). reflexivity.
Qed.
Lemma alone_case : plain_text (lit "# coding: utf-8" ++ [10] ++ lit "# yupp") /\
  no_magic is_word (lit "# coding: utf-8" ++ [10] ++ lit "# yupp").
Proof.
  split; [split; [|split; absent]; apply permitted_by_chars; reflexivity|].
  set (t := lit "# coding: utf-8" ++ [10] ++ lit "# yupp"). intros x c rest E _ [(body & -> & F) R]. apply not_magic_by_search.
  assert (K : forall i j, (i <= List.length t)%nat -> (j <= List.length t)%nat ->
     forallb (fun x => negb (ps_EOL x)) (firstn j (skipn i t)) = true -> coding_search (firstn j (skipn i t)) = None).
  { assert (A : forallb (fun i => forallb (fun j =>
       negb (forallb (fun x => negb (ps_EOL x)) (firstn j (skipn i t))) || match coding_search (firstn j (skipn i t)) with None => true | _ => false end)
       (List.seq 0 (S (List.length t)))) (List.seq 0 (S (List.length t))) = true) by (vm_compute; reflexivity).
    intros i j Hi Hj. rewrite forallb_forall in A. specialize (A i). rewrite in_seq in A. specialize (A ltac:(lia)).
    rewrite forallb_forall in A. specialize (A j). rewrite in_seq in A. specialize (A ltac:(lia)).
    destruct (forallb _ (firstn j (skipn i t))); [|discriminate]. destruct (coding_search _); [discriminate|reflexivity]. }
  specialize (K (List.length x) (List.length (35 :: body))).
  rewrite E, skipn_length_app, firstn_length_app in K. apply K.
  - rewrite app_length. lia.
  - rewrite !app_length. lia.
  - apply forallb_forall. intros z [<-|Hz]; [reflexivity|]. rewrite Forall_forall in F. specialize (F z Hz). rewrite <- ps_EOL_spec in F.
    destruct (ps_EOL z); [congruence|reflexivity].
Qed.
Lemma python_never_altered w cfg d n t input output pr : plain_text t -> k_browse cfg = false ->
  exists t', unified t t' /\ (no_magic is_word t' ->
    (pp w cfg (S d) (S (S (S n))) t input output pr = Ok (PP true (replace_steady (reduce_emptiness (k_reduce cfg) t')) None None false 0)
     \/ ((In 34 t \/ In 39 t \/ occurs (lit "/*") t) /\ pp w cfg (S d) (S (S (S n))) t input output pr = Ok (PP false [] None None false 0)))).
Proof.
  intros P B. exists (unify_eol t). split; [apply unify_eol_unified|]. intros M.
  destruct (run_plain w cfg d n t input output pr P B (no_magic_no_header _ _ _ _ _ M)) as [->|[F ->]]; [left; reflexivity|right].
  split; [|reflexivity]. destruct F as [[_ F]|[_ F]]; tauto.
Qed.
