(** Whole runs, with the language, the comments, the name and the directories told by the names of the files and the options (proofs only). *)
From Coq Require Import List NArith ZArith Bool String.
From Verif Require Import PyStr LexSpec Ast Lex Final Shell ShellSpec EvalSpec Eval EnvSpec Parse ParseSpec PpSpec Pp HeaderFacts PpFacts3 PpCases ProtectSpec ProtectFacts ProtectCases ExprSpec CoreSpec RunSpec RunFacts RunCases RunHead MacroCases SheetSpec SheetCases PyCases RecurCases MutualCases ConfSpec ReadFacts.
Import ListNotations.
Open Scope list_scope.
Open Scope N_scope.

Lemma read_plain_run w cfg d n t input output pr :
  plain_text t -> language_of output false -> k_skip cfg = 0%Z -> k_browse cfg = false -> k_reduce cfg = false ->
  ~ In 254 t -> ~ In 255 t ->
  exists t', unified t t' /\ pp w cfg (S d) (S (S (S n))) t input output pr = Ok (PP true t' None None false 0).
Proof. reading (plain_run w cfg d n t input output pr). Qed.

Lemma read_never_altered w cfg d n t input output pr :
  plain_text t -> language_of output false -> k_browse cfg = false ->
  exists t', unified t t' /\
    (pp w cfg (S d) (S (S (S n))) t input output pr =
       Ok (PP true (replace_steady (reduce_emptiness (k_reduce cfg) t')) None None false 0)
     \/ (comments_of false (k_skip cfg) SkipC /\ occurs (lit "/*") t /\
         pp w cfg (S d) (S (S (S n))) t input output pr = Ok (PP false [] None None false 0))).
Proof.
  intros Hp Hl Hb. apply language_is in Hl. destruct (never_altered w cfg d n t input output pr Hp Hl Hb) as (t' & U & [H|(H & H1 & H2)]); exists t'; split; try exact U.
  - left. exact H.
  - right. rewrite Hl in H. split; [apply comments_c, H|split; assumption].
Qed.

Lemma read_plain_run_browse w cfg d n t input output pr key :
  source_named input key ->
  plain_text t -> language_of output false -> k_skip cfg = 0%Z -> k_browse cfg = true -> k_reduce cfg = false ->
  ~ In 254 t -> ~ In 255 t -> all_digits key = false ->
  exists t' j, unified t t' /\ pp w cfg (S d) (S (S (S n))) t input output pr = Ok (PP true t' (Some j) None false 0).
Proof. reading (plain_run_browse w cfg d n t input output pr). Qed.

Lemma read_header_run w cfg d n t input output pr :
  language_of output true -> k_browse cfg = false -> k_reduce cfg = false -> k_skip cfg = 0%Z -> ~ In 254 t -> ~ In 255 t ->
  exists t', unified t t' /\ forall kept rest ln, header is_word t' kept rest ln -> rest <> [] -> plain_text rest ->
    ~ In 34 rest -> ~ In 39 rest ->
    pp w cfg (S d) (S (S (S n))) t input output pr = Ok (PP true (kept ++ rest) None None false ln).
Proof. reading (header_run w cfg d n t input output pr). Qed.

Lemma read_run_only_header w cfg d n t input output pr kept ln :
  language_of output true -> header is_word (unify_eol t) kept [] ln ->
  pp w cfg (S d) n t input output pr = Ok (PP false [] None None false 0).
Proof. reading (run_only_header w cfg d n t input output pr kept ln). Qed.

Lemma read_protected_run w cfg d n t input output pr python sk :
  language_of output python -> comments_of python (k_skip cfg) sk ->
  k_browse cfg = false -> k_reduce cfg = false -> ~ In 254 t -> ~ In 255 t ->
  exists t', unified t t' /\
    ((python = true -> no_magic is_word t') -> protected python sk [] t' ->
     pp w cfg (S d) (S (S (S n))) t input output pr = Ok (PP true t' None None false 0)).
Proof. reading (protected_run w cfg d n t input output pr). Qed.

Lemma read_unclosed_run w cfg d n t input output pr python sk :
  language_of output python -> comments_of python (k_skip cfg) sk ->
  k_browse cfg = false ->
  exists t', unified t t' /\ forall tail, (python = true -> no_magic is_word t') ->
    unclosed sk tail -> protected python sk tail t' ->
    pp w cfg (S d) (S (S (S n))) t input output pr = Ok (PP false [] None None false 0).
Proof. reading (unclosed_run w cfg d n t input output pr). Qed.

Lemma read_literal_run w cfg d n t input output pr :
  k_browse cfg = false -> k_reduce cfg = false -> k_skip cfg = 0%Z -> language_of output false -> ~ In 254 t -> ~ In 255 t ->
  exists t', unified t t' /\
    (protected false SkipNone [] t' -> pp w cfg (S d) (S (S (S n))) t input output pr = Ok (PP true t' None None false 0)).
Proof. reading (literal_run w cfg d n t input output pr). Qed.

Lemma read_header_document_run w cfg d t t' kept rest ln c out fb input output pr sk :
  comments_of true (k_skip cfg) sk ->
  unified t t' -> language_of output true -> header is_word t' kept rest ln -> rest <> [] ->
  document true sk rest c -> k_browse cfg = false ->
  page (run_ectx w cfg input output pr) [] (behind kept) (Feedback None false) (runs true [] c) out fb ->
  exists n0, forall n, (n0 <= n)%nat -> pp w cfg (S d) n t input output pr =
    Ok (PP true (replace_steady (reduce_emptiness (k_reduce cfg) (kept ++ out))) None (f_output fb) (f_repeat fb) ln).
Proof. reading (header_document_run w cfg d t t' kept rest ln c out fb input output pr). Qed.

Lemma read_python_run w cfg d n t input output pr sk :
  comments_of true (k_skip cfg) sk ->
  k_browse cfg = false -> k_reduce cfg = false -> language_of output true -> ~ In 254 t -> ~ In 255 t ->
  exists t', unified t t' /\
    (no_magic is_word t' -> protected true sk [] t' ->
     pp w cfg (S d) (S (S (S n))) t input output pr = Ok (PP true t' None None false 0)).
Proof. reading (python_run w cfg d n t input output pr). Qed.

Lemma read_document_run w cfg d t t' c out fb input output pr python sk :
  language_of output python -> comments_of python (k_skip cfg) sk ->
  unified t t' -> document python sk t' c ->
  (python = true -> no_magic is_word t') -> k_browse cfg = false ->
  page (run_ectx w cfg input output pr) [] (IndStr []) (Feedback None false) (runs true [] c) out fb ->
  exists n0, forall n, (n0 <= n)%nat ->
    pp w cfg (S d) n t input output pr =
      Ok (PP true (replace_steady (reduce_emptiness (k_reduce cfg) out)) None (f_output fb) (f_repeat fb) 0).
Proof. reading (document_run w cfg d t t' c out fb input output pr). Qed.

Lemma read_one_meaning w cfg input output pr t c out1 fb1 out2 fb2 python sk :
  language_of output python -> comments_of python (k_skip cfg) sk ->
  document python sk t c ->
  (python = true -> no_magic is_word t) -> k_browse cfg = false -> ~ In 13 t ->
  page (run_ectx w cfg input output pr) [] (IndStr []) (Feedback None false) (runs true [] c) out1 fb1 ->
  page (run_ectx w cfg input output pr) [] (IndStr []) (Feedback None false) (runs true [] c) out2 fb2 -> out1 = out2 /\ fb1 = fb2.
Proof. reading (one_meaning w cfg input output pr t c out1 fb1 out2 fb2). Qed.

Lemma read_sheet_run w cfg h d t t' x kn' out fb input output pr python sk key dirs :
  language_of output python -> comments_of python (k_skip cfg) sk -> source_named input key -> searched (k_dirs cfg) (w_lib w) input dirs ->
  unified t t' ->
  sheet python sk dirs (w_read w) h [key; lit "<null>"] t' x kn' ->
  (python = true -> no_magic is_word t') -> k_browse cfg = false -> key <> lit "<null>" -> (h <= d)%nat ->
  page (run_ectx w cfg input output pr) [] (IndStr []) (Feedback None false) (pieces true [] x) out fb ->
  exists n0, forall n, (n0 <= n)%nat ->
    pp w cfg (S d) n t input output pr =
      Ok (PP true (replace_steady (reduce_emptiness (k_reduce cfg) out)) None (f_output fb) (f_repeat fb) 0).
Proof. reading (sheet_run w cfg h d t t' x kn' out fb input output pr). Qed.

Lemma read_document_passes w cfg d t t' c out fo input output prs m python sk :
  language_of output python -> comments_of python (k_skip cfg) sk ->
  unified t t' -> document python sk t' c ->
  (python = true -> no_magic is_word t') -> k_browse cfg = false -> (0 < m)%nat ->
  (forall k, (k < m)%nat ->
     page (run_ectx w (at_passage cfg k) input output (prs k)) [] (IndStr []) (Feedback None false) (runs true [] c) (out k) (Feedback (fo k) (Nat.ltb (S k) m))) ->
  exists n0, forall n, (n0 <= n)%nat ->
    passes (run_pass w cfg (S d) n t input output prs) 0 [] true m
      (map (fun k => PP true (replace_steady (reduce_emptiness (k_reduce cfg) (out k))) None (fo k) (Nat.ltb (S k) m) 0) (List.seq 0 m)).
Proof. reading (document_passes w cfg d t t' c out fo input output prs m). Qed.

Lemma read_element_per_pass w cfg d t t' c a b x vs y r out fo input output prs python sk :
  language_of output python -> comments_of python (k_skip cfg) sk ->
  unified t t' -> document python sk t' c ->
  (python = true -> no_magic is_word t') -> k_browse cfg = false ->
  runs true [] c = NSet (LAtom a) (NApply (NVar (RList []) b) [x] [] None 0) :: y :: r ->
  s_txt b = lit "__PASSAGE__" -> s_txt a <> lit "__PASSAGE__" -> s_txt a <> lit "__OUTPUT_FILE__" -> vs <> [] ->
  (forall k v, nth_error vs k = Some v ->
     let ec := run_ectx w (at_passage cfg k) input output (prs k) in
     (forall imported, e_builtin ec imported (lit "__PASSAGE__") = None) /\
     value ec (InText [(s_txt a, EOpen)]) x (NList vs) /\
     forall rep, page ec [(s_txt a, EValue v)] (IndStr []) (Feedback None rep) (trimmed_next (IndStr []) (y :: r)) (out k) (Feedback (fo k) rep)) ->
  exists n0, forall n, (n0 <= n)%nat ->
    passes (run_pass w cfg (S d) n t input output prs) 0 [] true (List.length vs)
      (map (fun k => PP true (replace_steady (reduce_emptiness (k_reduce cfg) (out k))) None (fo k) (Nat.ltb (S k) (List.length vs)) 0) (List.seq 0 (List.length vs))).
Proof. reading (element_per_pass w cfg d t t' c a b x vs y r out fo input output prs). Qed.

Lemma read_cases_run w cfg d t t' input output pr n q r h x c a b v vc y z u out python sk :
  language_of output python -> comments_of python (k_skip cfg) sk ->
  unified t t' -> document python sk t'
    [inr (NSet (LAtom n) (NLambda [([], q, NNone)] (NApply (NCond c a b) [] [] None 0))); inr (NApply (NVar r h) [x] [] None 0)] ->
  (python = true -> no_magic is_word t') -> k_browse cfg = false ->
  s_txt h = s_txt n -> s_txt n <> lit "__OUTPUT_FILE__" -> s_txt q <> lit "..." -> s_txt q <> lit "__va_args__" ->
  let ec := run_ectx w cfg input output pr in
  let f := (s_txt n, ECases (s_txt q) c a b) in
  needs ec (s_txt q) c -> value ec (InText [f]) x v -> constant_value v ->
  value ec (InBody [s_txt q; s_txt n] [(s_txt q, v)]) c vc -> selects vc a b y ->
  value ec (InText [(s_txt q, EValue v); f]) y z -> value_text z u -> placed ec [] u out ->
  exists n0, forall k, (n0 <= k)%nat ->
    pp w cfg (S d) k t input output pr = Ok (PP true (replace_steady (reduce_emptiness (k_reduce cfg) out)) None None false 0).
Proof. reading (cases_run w cfg d t t' input output pr n q r h x c a b v vc y z u out). Qed.

(** ** Cases *)
Lemma no_slash (t : text) : forallb (fun c => negb (c =? 47)) t = true -> ~ In 47 t.
Proof. intros H E. rewrite forallb_forall in H. apply H in E. discriminate E. Qed.
Lemma c_output : language_of (Some (lit "a.c")) false.
Proof. apply LO_other with (n := lit "a.c"); [constructor; apply no_slash; reflexivity|]. intros H. inversion H as [name p y _ Hp Hy E]. destruct name as [|? [|? [|? [|? ?]]]]; discriminate. Qed.
Lemma py_output : language_of py_out true.
Proof.
  apply LO_python with (n := lit "a.py"); [constructor; apply no_slash; reflexivity|].
  apply (PF_py [97] 112 121); [left; discriminate|left; reflexivity|left; reflexivity].
Qed.
Lemma c_input : source_named (Some (lit "a.yu-c")) (lit "a.yu-c").
Proof. apply SN_file; [discriminate|]. constructor. apply no_slash. reflexivity. Qed.
Lemma read_plain_case : plain_text c_source /\ language_of (Some (lit "a.c")) false /\ ~ In 254 c_source /\ ~ In 255 c_source /\
  pp world0 (config0 0 false false) 1 4 c_source (Some (lit "a.yu-c")) (Some (lit "a.c")) process0 =
    Ok (PP true (lit "int x[] = { '\'', ""a(b"" };" ++ [10; 9] ++ lit "f(x); // (done" ++ [10] ++ lit "/* it's") None None false 0).
Proof. destruct plain_case as (H1 & _ & H). exact (conj H1 (conj c_output H)). Qed.
Lemma read_skip_case : plain_text c_source /\ comments_of false (k_skip (config0 1 false false)) SkipC /\
  pp world0 (config0 1 false false) 1 4 c_source (Some (lit "a.yu-c")) (Some (lit "a.c")) process0 =
    Ok (PP false [] None None false 0).
Proof. destruct skip_case as (H1 & _ & H). exact (conj H1 (conj (CM_c false) H)). Qed.
Lemma read_header_case : header is_word py_source (lit "#!/usr/bin/python" ++ [10] ++ lit "# -*- coding: utf-8 -*-") ([10] ++ lit "x = [1]" ++ [10]) 2 /\
  plain_text ([10] ++ lit "x = [1]" ++ [10]) /\ language_of py_out true /\
  pp world0 (config0 0 false false) 1 4 py_source py_in py_out process0 =
    Ok (PP true (lit "#!/usr/bin/python" ++ [10] ++ lit "# -*- coding: utf-8 -*-" ++ [10] ++ lit "x = [1]" ++ [10]) None None false 2).
Proof. destruct header_case as (H1 & H2 & _ & H). exact (conj H1 (conj H2 (conj py_output H))). Qed.
Lemma read_program_case : header is_word py_program py_kept py_rest 2 /\ language_of py_out true /\ comments_of true (k_skip run_config) SkipNone /\ document true SkipNone py_rest py_contents /\
  page (run_ectx world0 run_config py_in py_out process0) [] (behind py_kept) (Feedback None false) (runs true [] py_contents) py_out_text (Feedback None false) /\
  pp world0 run_config 1 20 py_program py_in py_out process0 =
    Ok (PP true (lit "#!/usr/bin/python" ++ 10 :: lit "# -*- coding: utf-8 -*-" ++ 10 :: lit "x = '($n) it\'s'" ++ 10 :: lit "y = 2") None None false 2).
Proof. destruct py_program_case as (H1 & H). exact (conj H1 (conj py_output (conj (CM_none true) H))). Qed.
Lemma read_sheet_case : language_of (Some (lit "a.c")) false /\ comments_of false (k_skip run_config) SkipNone /\
  source_named (Some (lit "src/a.yu-c")) (lit "a.yu-c") /\ searched (k_dirs run_config) (w_lib world1) (Some (lit "src/a.yu-c")) [lit "src"; lit "lib"] /\
  sheet false SkipNone [lit "src"; lit "lib"] (w_read world1) 2
    [lit "a.yu-c"; lit "<null>"] main_file main_parts [lit "sq.yu"; lit "area.yu"; lit "a.yu-c"; lit "<null>"] /\
  page (run_ectx world1 run_config (Some (lit "src/a.yu-c")) (Some (lit "a.c")) process0) [] (IndStr []) (Feedback None false) (pieces true [] main_parts) (lit "a = 16;") (Feedback None false).
Proof.
  destruct sheet_case as (_ & _ & H). split; [exact c_output|]. split; [exact (CM_none false)|].
  split; [apply SN_file; [discriminate|apply (FN_in (lit "src") (lit "a.yu-c")), no_slash; reflexivity]|].
  split; [|exact H]. apply SD_file; [discriminate|]. apply (DN_dir (lit "sr") 99 0 (lit "a.yu-c")); [discriminate|apply no_slash; reflexivity].
Qed.
