(** * def-if of the standard library (proofs only) *)
From Coq Require Import List NArith ZArith Bool String Lia ZifyBool ZifyNat ZifyN.
From Verif Require FormatSpec FormatFacts FormatCases TextSpec TextFacts TextCases.
From Verif Require Import PyStr PyStrFacts Ast Lex LexSpec ProtectSpec QuoteSpec LexFacts LexFacts2 LexCases Parse ParseSpec ParseFacts3 PpFacts HeaderFacts Final Shell ShellSpec Eval Builtin Builtin2 EnvSpec EvalSpec EvalFacts TrimSpec TrimCases CodecFacts Pp PpSpec PpCases ProtectCases ExprSpec ExprShow DocSpec ExprCases CoreSpec CoreFacts CoreCases RunSpec RunFacts RunFacts2 RunCases MacroCases SheetSpec SheetFacts SheetCases Eg StdSpec StdFacts StdRun StdCases GuardSpec GuardCases.
Import ListNotations.
Open Scope list_scope.
Open Scope N_scope.

Definition nm (n : text) : expr := EVar (VName [] n).
Definition set_if (e : expr) (n : text) : construct := CSet (BName n) (ECond e (ENum 1) (Some (ENum 0))).
Definition line_text (n : text) : text := show_construct (CExpr (unq_of (lit "#define"))) ++ lit " " ++ n.
Definition line_contents (n : text) : contents := inr (tree_construct (CExpr (unq_of (lit "#define")))) :: map inl (lit " " ++ n).
Definition line_if (n : text) : construct := CExpr (EApp false true (v "if") [(false, nm n); (false, EText DSquare (line_text n) (line_contents n))] []).
Definition if_text (e : expr) (n : text) : text := show_construct (set_if e n) ++ 10 :: show_construct (line_if n).
Definition if_contents (e : expr) (n : text) : contents := [inr (tree_construct (set_if e n)); inl 10; inr (tree_construct (line_if n))].

Lemma chars_square w : Forall (fun c => name_char c \/ c = 32) w -> ExprSpec.written false SkipNone DSquare level w (map inl w).
Proof.
  induction w as [|c w IH]; intros Hw; [apply wr_end; reflexivity|]. inversion Hw as [|c0 w0 Hc Hr]; subst. cbn [map].
  assert (N : c <> 34 /\ c <> 39 /\ c <> 40 /\ c <> 41 /\ c <> 91 /\ c <> 93 /\ permitted c) by (unfold name_char, letter, decimal_digit, permitted, line_end in *; lia). destruct N as (N1 & N2 & N3 & N4 & N5 & N6 & N7).
  apply wr_char; [exact N7|exact N1|exact N2| | |intros []|discriminate| |].
  - intros [x E]. injection E as E _. contradiction.
  - intros [x E]. injection E as E _. contradiction.
  - intros [_ [x E]]. injection E as E _. contradiction.
  - replace (depth_behind c level) with level; [apply IH, Hr|]. unfold depth_behind, level. cbn [fst snd]. replace (c =? 91) with false by lia. replace (c =? 93) with false by lia. replace (c =? 40) with false by lia. replace (c =? 41) with false by lia. reflexivity.
Qed.
Lemma if_doc e n : wf false SkipNone e -> is_former e = true -> identifier n -> document false SkipNone (if_text e n) (if_contents e n).
Proof.
  intros Hc Hf Hn.
  assert (W1 : construct_ok false SkipNone (set_if e n)).
  { apply co_set; [exact Hn|]. apply wf_cond; [exact Hc|apply wf_num|exact Hf|reflexivity|]. intros e0 E. injection E as <-. apply wf_num. }
  assert (W2 : construct_ok false SkipNone (line_if n)).
  { apply co_expr; [|exact Logic.I]. apply wf_app; [apply wf_var; split; [constructor|ident]| | |constructor].
    - intros _ _. repeat (apply Forall_cons; [intros [x E]; discriminate E|]). apply Forall_nil.
    - apply Forall_cons; [split; [apply wf_var; split; [constructor|exact Hn]|reflexivity]|]. apply Forall_cons; [split; [|reflexivity]|constructor].
      cbn [snd]. apply wf_text; [exact Logic.I|]. unfold line_text, line_contents. pose proof (unq_wf (lit "#define") define_inside) as W. revert W. generalize (CExpr (unq_of (lit "#define"))). intros k W.
      apply wr_construct; [exact W|]. apply chars_square. apply Forall_app. split; [constructor; [right; reflexivity|constructor]|]. eapply Forall_impl; [|exact (identifier_chars n Hn)]. intros x Hx. left. exact Hx. }
  unfold if_text, if_contents. revert W1 W2. generalize (set_if e n) (line_if n). intros c1 c2 W1 W2.
  apply wr_construct; [exact W1|]. apply wr_char; [apply ps_ANY_spec; reflexivity|discriminate|discriminate|no_begin|no_begin|intros []|discriminate|intros []|].
  rewrite <- (app_nil_r (show_construct c2)). apply wr_construct; [exact W2|]. apply wr_end. exact Logic.I.
Qed.
Lemma name_no_break n : identifier n -> forallb (fun c => negb (py_isbreak c)) n = true.
Proof. intros Hn. apply forallb_forall. intros c Hc. pose proof (identifier_chars n Hn) as H. rewrite Forall_forall in H. specialize (H c Hc). unfold name_char, letter, decimal_digit in H. unfold py_isbreak. lia. Qed.

(** the parameters are replaced one after the other; a name holds no parameter *)
Lemma kept_over m n w r u : Forall (fun c => c <> 40) w -> FormatSpec.replaced (FormatSpec.mark m) n r u -> FormatSpec.replaced (FormatSpec.mark m) n (w ++ r) (w ++ u).
Proof. intros H Hr. induction H as [|c w Hc _ IH]; [exact Hr|]. cbn [app]. apply FormatSpec.RE_kept; [|exact IH]. intros x E. injection E as E _. contradiction. Qed.
Lemma replaced_is m n s u : replace (FormatSpec.mark m) n s = u -> FormatSpec.replaced (FormatSpec.mark m) n s u.
Proof. intros E. destruct (FormatFacts.replaced_exists (FormatSpec.mark m) n (FormatFacts.mark_some m) s) as [u' H]. rewrite (FormatFacts.replaced_spec _ _ _ _ (FormatFacts.mark_some m) H) in E. subst u'. exact H. Qed.
Lemma if_turn e n : Forall (fun c => c <> 40) (show e) -> FormatSpec.replaced_in_turn (combine [lit "cond"; lit "name"] [show e; n])
  (lit "($set ($name) 1 ? ($cond) | 0)" ++ nl ++ lit "($if ($name) [($unq " ++ quoted (lit "#define") ++ lit ") ($name)])") (if_text e n).
Proof.
  intros Hc. cbn [combine]. set (c := show e) in *. set (tail := lit " | 0)" ++ nl ++ lit "($if ($name) [($unq " ++ quoted (lit "#define") ++ lit ") ($name)])").
  apply FormatSpec.RT_more with (s1 := lit "($set ($name) 1 ? " ++ c ++ tail).
  - apply replaced_is. vm_compute. rewrite ?app_nil_r. reflexivity.
  - eapply FormatSpec.RT_more; [|apply FormatSpec.RT_end].
    replace (if_text e n) with (40 :: lit "$set " ++ n ++ lit " 1 ? " ++ c ++ lit " | 0)" ++ nl ++ lit "($if " ++ n ++ lit " [($unq " ++ quoted (lit "#define") ++ lit ") " ++ n ++ lit "])").
    2: { unfold if_text. change (show_construct (set_if e n)) with (lit "($set " ++ n ++ lit " " ++ (lit "1 ? " ++ c ++ lit " | 0") ++ lit ")").
         change (show_construct (line_if n)) with (lit "($if" ++ ((lit " " ++ n) ++ (lit " " ++ (lit "[" ++ (lit "($unq " ++ quoted (lit "#define") ++ lit ")" ++ lit " " ++ n) ++ lit "]")) ++ []) ++ lit ")").
         rewrite app_nil_r, <- !app_assoc. reflexivity. }
    change (lit "($set ($name) 1 ? " ++ c ++ tail) with (40 :: lit "$set " ++ FormatSpec.mark (lit "name") ++ lit " 1 ? " ++ c ++ tail).
    apply FormatSpec.RE_kept; [intros y E; discriminate E|]. apply kept_over; [repeat constructor; discriminate|]. apply FormatSpec.RE_found. apply kept_over; [repeat constructor; discriminate|].
    apply kept_over; [exact Hc|]. apply replaced_is. vm_compute. reflexivity.
Qed.

Section DefIf.
Variables (ec : ectx) (top : Z) (later : defs).
Notation g := (later ++ library_defs top).
Lemma use_def_if r a x y val val' e n vc z fb rest t fb' : s_txt a = lit "def-if" ->
  c_python (e_parse ec) = false -> c_skip (e_parse ec) = SkipNone -> TextSpec.offers ec (lit "unq") ->
  ~ In (lit "def-if") (names later) -> ~ In (lit "if") (names later) -> ~ In (lit "unq") (names later) ->
  wf false SkipNone e -> is_former e = true -> Forall (fun c => c <> 40) (show e) -> identifier n -> n <> lit "if" -> n <> lit "unq" -> n <> lit "__OUTPUT_FILE__" ->
  value ec (InText g) x val -> FormatSpec.inserts val (show e) -> value ec (InText g) y val' -> FormatSpec.inserts val' n ->
  value ec (InText ((n, EOpen) :: g)) (ExprSpec.tree e) vc -> selects vc (NInt 1) (NInt 0) (NInt z) ->
  page ec ((n, EValue (NInt z)) :: g) IndFalse fb rest t fb' ->
  page ec g (IndStr []) fb (NApply (NVar r a) [x; y] [] None 0 :: rest) ((if e_trim ec then [] else nl) ++ (if (z =? 0)%Z then [] else lit "#define " ++ n) ++ t) fb'.
Proof.
  intros Ea Py Sk Ou Nd Ni Nu We Fe Hc Hn N0 N1 N2 Vx Ix Vy Iy Vc Hs Hp.
  eapply PG_pieces with (fb1 := fb).
  - eapply CA_call with (later := later ++ firstn 7 (library_defs top)) (before := skipn 8 (library_defs top)) (m := lit "def-if") (vs := [val; val']) (us := [show e; n]) (c := if_contents e n).
    + rewrite <- app_assoc. reflexivity.
    + unfold names in *. rewrite map_app, in_app_iff. intros [H|H]; [exact (Nd H)|]. cbn [firstn library_defs map fst In] in H. repeat (destruct H as [H|H]; [discriminate H|]). exact H.
    + exact Ea.
    + intros [H|[H|[]]]; discriminate H.
    + apply AV_more; [exact Vx|]. apply AV_more; [exact Vy|apply AV_end].
    + apply Forall2_cons; [exact Ix|]. apply Forall2_cons; [exact Iy|apply Forall2_nil].
    + reflexivity.
    + apply if_turn. exact Hc.
    + rewrite Py, Sk. apply if_doc; assumption.
    + rewrite Py. discriminate.
    + apply RP_definition. apply Exists_cons_hd. exact Logic.I.
  - cbn [indented]. unfold if_contents. cbn [runs run app fold_left]. change (indent_behind IndNone 10) with (IndStr []).
    unfold set_if, line_if. cbn [app tree_construct tree_binder ExprSpec.tree nm tree_region tree_name map fst snd spliced v].
    eapply PG_set with (es := [(n, EValue (NInt z))]).
    + intros [H|[]]. cbn [fst] in H. congruence.
    + apply (DF_value ec g (raw n)). eapply VA_cond; [exact Vc|apply VA_constant, int_constant|apply VA_constant, int_constant|exact Hs].
    + cbn [trimmed_next app]. apply PG_run.
      * unfold front_cut. cbn [s_txt raw]. destruct (e_trim ec); cbn [andb]; [|reflexivity]. exists nl. split; [reflexivity|]. split; [constructor; [reflexivity|constructor]|]. exact Logic.I.
      * cbn [indent_then].
        assert (Vt : value ec (InText ((n, EValue (NInt z)) :: g)) (tree_text (line_contents n)) (NRaw (lit "#define " ++ n))).
        { unfold tree_text, line_contents. cbn [runs run app]. rewrite runs_chars. cbn [app tree_construct ExprSpec.tree unq_of v tree_region tree_name map fst snd spliced].
          assert (Eb : fold_left indent_behind (lit " " ++ n) IndNone = IndFalse) by (apply behind_name; [exact Hn|constructor; [reflexivity|constructor]]).
          unfold run. change (lit " " ++ n) with (32 :: n) in *. rewrite Eb.
          apply VA_text with (vs := [NRaw (lit "#define"); NPlain (raw (32 :: n)) IndFalse false]).
          - repeat (apply Forall_cons; [exact Logic.I|]). apply Forall_nil.
          - apply AV_more; [|apply AV_more; [apply VA_constant; split; [constructor|reflexivity]|apply AV_end]].
            eapply VA_builtin with (vs := [NStr (raw (34 :: lit "#define" ++ [34]))]).
            + apply AV_more; [apply VA_constant; split; [constructor|reflexivity]|apply AV_end].
            + unfold free_at. cbn [known_at s_txt raw names map fst]. intros [H|H]; [congruence|]. exact (free_name top later (lit "unq") [] eq_refl eq_refl Nu H).
            + apply (unq_gives ec); [exact Ou|reflexivity].
          - replace (lit "#define " ++ n) with (lit "#define" ++ (32 :: n) ++ []) by (rewrite app_nil_r; reflexivity).
            apply WR_applied with (u := lit "#define"); [exact Logic.I|apply SH_value, VT_raw|apply placed_nothing; auto|].
            apply WR_other; [intros []|apply SH_plain|apply WR_end]. }
        assert (Vn : value ec (InText ((n, EValue (NInt z)) :: g)) (NVar (RList []) (raw n)) (NInt z)).
        { apply VA_name. cbn [values_at values_in mem s_txt raw]. apply at_front. }
        set (w := if (z =? 0)%Z then NRaw [] else NRaw (lit "#define " ++ n)). set (u := if (z =? 0)%Z then [] else lit "#define " ++ n).
        assert (Ew : w = NRaw u) by (unfold w, u; destruct (z =? 0)%Z; reflexivity).
        apply PG_applied with (v := w) (u := u); [|rewrite Ew; apply SH_value, VT_raw| |exact Hp].
        { change ((n, EValue (NInt z)) :: g) with (((n, EValue (NInt z)) :: later) ++ library_defs top) in *.
          eapply use_if with (vc := NInt z) (vs := [NRaw (lit "#define " ++ n)]) (v1 := NRaw (lit "#define " ++ n)) (v2 := NRaw []) (u := u).
          - reflexivity.
          - intros [H|H]; [exact (N0 H)|exact (Ni H)].
          - exact Vn.
          - apply AV_more; [exact Vt|apply AV_end].
          - right. left. split; reflexivity.
          - split; [reflexivity|]. unfold w. destruct (Z.eqb_spec z 0) as [->|Nz]; [right; split; [right; left; reflexivity|reflexivity]|left; split; [|reflexivity]].
            intros [F|[F|[F|[F|[F|(q & F & _)]]]]]; try discriminate F. injection F as F. contradiction.
          - rewrite Ew. apply VT_raw. }
        unfold u. destruct (z =? 0)%Z.
        { unfold placed. destruct (e_trim ec) eqn:T; [|reflexivity]. pose proof (placed_lines' ec [] [[]] [] T ltac:(discriminate) eq_refl eq_refl) as P. unfold placed in P. rewrite T in P. exact P. }
        apply placed_solid. split; [|exists 35, (lit "define " ++ n); split; [reflexivity|split; discriminate]].
        apply Forall_app. split; [repeat constructor|]. pose proof (name_no_break n Hn) as B. rewrite forallb_forall in B. apply Forall_forall. intros q Hq. specialize (B q Hq). destruct (py_isbreak q); [discriminate B|reflexivity].
Qed.
End DefIf.

(** ** ($set A 3)($def-if A B).($B) *)
Definition run_of (s : text) := pp (with_library lib_top lib_input lib_world) lib_config 3 60 s lib_input lib_output process0.
Lemma def_if_case : let g := (lit "A", EValue (NInt 3)) :: library_defs lib_top in
  value lib_ec (InText g) (NVar (RList []) (raw (lit "A"))) (NInt 3) /\ FormatSpec.inserts (NInt 3) (show (ENum 3)) /\
  value lib_ec (InText g) (NVar (RList []) (raw (lit "B"))) (NAtom (raw (lit "B"))) /\ FormatSpec.inserts (NAtom (raw (lit "B"))) (lit "B") /\
  value lib_ec (InText ((lit "B", EOpen) :: g)) (ExprSpec.tree (ENum 3)) (NInt 3) /\ selects (NInt 3) (NInt 1) (NInt 0) (NInt 1) /\
  wf false SkipNone (ENum 3) /\ is_former (ENum 3) = true /\ Forall (fun c => c <> 40) (show (ENum 3)) /\
  run_of (lit "($import stdlib)($set A 3)($def-if A B).($B)") = Ok (PP true (lit "#define B.1") None None false 0) /\
  run_of (lit "($import stdlib)($set A 0)($def-if A B).($B)") = Ok (PP true (lit ".0") None None false 0).
Proof.
  cbn zeta. split; [apply VA_name, at_front|]. split; [apply (FormatSpec.IN_int 3)|].
  split; [apply VA_atom; [|reflexivity| |]; intros H; repeat (destruct H as [H|H]; [discriminate H|]); exact H|]. split; [apply (FormatSpec.IN_atom (raw (lit "B")))|].
  split; [apply VA_constant, int_constant|]. split; [split; [reflexivity|left; split; [intros [H|[H|[H|[H|[H|(t & H & _)]]]]]; discriminate H|reflexivity]]|].
  split; [apply wf_num|]. split; [reflexivity|]. split; [repeat constructor; discriminate|]. split; vm_compute; reflexivity.
Qed.
(** a condition that is not defined *)
Lemma def_if_open : run_of (lit "($import stdlib)($def-if A B)") = Ok (PP true (lit "#define B") None None false 0) /\
  run_of (lit "($import stdlib)a($skip-if-not A)b") = Ok (PP true (lit "ab") None None false 0) /\
  run_of (lit "($import stdlib)($set A 0)a($skip-if-not A)b") = Ok (PP true (lit "a") None None false 0).
Proof. split; [|split]; vm_compute; reflexivity. Qed.
(** once the name has a value, the value takes its place *)
Lemma undef_defined : run_of (lit "($import stdlib)($def B)") = Ok (PP true (lit "#define B") None None false 0) /\
  run_of (lit "($import stdlib)($undef B)") = Ok (PP true (lit "#undef  B") None None false 0) /\
  run_of (lit "($import stdlib)($def B)($undef (`B))") = Ok (PP true (lit "#define B" ++ 10 :: lit "#undef  B") None None false 0) /\
  run_of (lit "($import stdlib)($def B)($undef B)") = Ok (PP false [] None None false 0).
Proof. repeat split; vm_compute; reflexivity. Qed.
