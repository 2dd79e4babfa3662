(** * do and foo of the standard library (proofs only) *)
From Coq Require Import List NArith ZArith Bool String Lia ZifyBool ZifyNat ZifyN.
From Verif Require FormatSpec FormatFacts FormatCases TextSpec TextFacts TextCases.
From Verif Require Import PyStr PyStrFacts Ast Lex LexSpec ProtectSpec QuoteSpec LexFacts LexFacts2 LexCases Parse ParseSpec ParseFacts3 PpFacts HeaderFacts Final Shell ShellSpec Eval Builtin Builtin2 EnvSpec EvalSpec EvalFacts TrimSpec TrimCases CodecFacts Pp PpSpec PpCases ProtectCases ExprSpec ExprShow DocSpec ExprCases CoreSpec CoreFacts CoreCases RunSpec RunFacts RunFacts2 RunCases MacroCases SheetSpec SheetFacts SheetCases Eg StdSpec StdFacts StdRun StdCases.
Import ListNotations.
Open Scope list_scope.
Open Scope N_scope.

Lemma doc_behind post d2 b c n : ExprSpec.written false SkipNone DSource n b c -> (forall n, ExprSpec.written false SkipNone DSource n (10 :: post) d2) ->
  ExprSpec.written false SkipNone DSource n (b ++ 10 :: post) (c ++ d2).
Proof.
  remember DSource as k eqn:Ek. intros H Hp. induction H as [k n He|k n x r d H1 H2 H3 H4 H5 H6 H7 H8 H9 IH|k n q body r d H1 H2 H3 H4 IH|k n w r d H1 H2 H3 IH|k n x r d H1 H2 IH|k n o body r d H1 H2 H3 H4 IH|k n x u r d H1 H2 IH]; subst k.
  - apply Hp.
  - cbn [app]. apply wr_char; [assumption|assumption|assumption| | |intros []|discriminate|intros []|exact (IH eq_refl Hp)].
    + intros [y E]. destruct r as [|z r]; [discriminate E|]. cbn [app] in E. injection E as E1 E2 _. apply H4. exists r. subst. reflexivity.
    + intros [y E]. destruct r as [|z r]; [discriminate E|]. cbn [app] in E. injection E as E1 E2 _. apply H5. exists r. subst. reflexivity.
  - rewrite <- app_comm_cons, <- app_assoc, <- app_comm_cons. cbn [app]. apply wr_literal; try assumption. exact (IH eq_refl Hp).
  - discriminate H1.
  - inversion H1.
  - rewrite <- !app_assoc, <- app_comm_cons. cbn [app]. apply wr_quotation; try assumption. exact (IH eq_refl Hp).
  - rewrite <- app_assoc. cbn [app]. apply wr_spelled; try assumption. exact (IH eq_refl Hp).
Qed.
Definition quiet (c : char) : bool := negb ((c =? 34) || (c =? 39) || (c =? 36) || (c =? 96)) && ps_ANY c.
Lemma chars_before pre r d n : forallb quiet pre = true -> (forall p, pre = p ++ [40] -> False) -> (forall n, ExprSpec.written false SkipNone DSource n r d) ->
  ExprSpec.written false SkipNone DSource n (pre ++ r) (map inl pre ++ d).
Proof.
  intros Hq He Hr. revert n. induction pre as [|c pre IH]; intros n; [apply Hr|]. cbn [forallb] in Hq. apply andb_true_iff in Hq as [Hc Hq]. cbn [app map].
  unfold quiet in Hc. apply andb_true_iff in Hc as [Hc Ha]. rewrite negb_true_iff in Hc.
  apply wr_char; [apply ps_ANY_spec, Ha|lia|lia| | |intros []|discriminate|intros []|].
  - intros [y E]. destruct pre as [|z pre]; cbn [app] in E.
    + injection E as E _. apply (He []). rewrite E. reflexivity.
    + injection E as _ E _. subst z. cbn in Hq. discriminate Hq.
  - intros [y E]. destruct pre as [|z pre]; cbn [app] in E.
    + injection E as E _. apply (He []). rewrite E. reflexivity.
    + injection E as _ E _. subst z. cbn in Hq. discriminate Hq.
  - apply IH; [exact Hq|]. intros p E. apply (He (c :: p)). cbn [app]. congruence.
Qed.
Lemma runs_before pre c : runs true [] (map inl pre ++ c) = runs true pre c.
Proof.
  assert (K : forall w, runs true w (map inl pre ++ c) = runs true (w ++ pre) c).
  { induction pre as [|x pre IH]; intros w; cbn [map app runs]; [rewrite app_nil_r; reflexivity|]. rewrite IH, <- app_assoc. reflexivity. }
  apply (K []).
Qed.
Lemma runs_begin pre c : pre <> [] -> exists s i r, runs true pre c = NPlain s i false :: r.
Proof.
  revert pre. induction c as [|[x|x] c IH]; intros pre Hp; cbn [runs].
  - destruct pre; [contradiction|]. eexists _, _, _. reflexivity.
  - apply IH. destruct pre; discriminate.
  - destruct pre; [contradiction|]. eexists _, _, _. reflexivity.
Qed.

Section Wrap.
Variables (ec : ectx) (top : Z) (later : defs).
Notation g := (later ++ library_defs top).
Lemma plain_page s i r u fb fb1 : Forall (fun z => ~ a_definition z) (NPlain s i false :: r) -> page ec g (IndStr []) fb (NPlain s i false :: r) u fb1 ->
  read_pieces ec g fb (NPlain s i false :: r) (OText u) fb1.
Proof.
  intros Hn Hp. destruct r as [|y r]; [|apply RP_many; assumption].
  inversion Hp; subst; try match goal with H : called _ _ _ (NPlain _ _ _) _ _ |- _ => inversion H end.
  match goal with H : page _ _ _ _ [] _ _, H2 : front_cut _ _ _ _ |- _ => inversion H; subst; rewrite ?app_nil_r; apply RP_run, H2 end.
Qed.
Lemma use_wrapped mac mid before pre post r a x val b c u ind w fb fb1 rest t fb' :
  library_defs top = mid ++ (mac, EMacro [lit "body"] (pre ++ lit "($body)" ++ 10 :: post)) :: before -> ~ In mac (names mid) -> ~ In mac (names later) -> s_txt a = mac ->
  c_python (e_parse ec) = false -> c_skip (e_parse ec) = SkipNone -> pre <> [] -> forallb quiet pre = true -> (forall p, pre = p ++ [40] -> False) -> forallb quiet post = true -> (forall p, post = p ++ [40] -> False) ->
  (FormatSpec.replaced_in_turn [(lit "body", b)] (pre ++ lit "($body)" ++ 10 :: post) (pre ++ b ++ 10 :: post)) ->
  value ec (InText g) x val -> FormatSpec.inserts val b -> document false SkipNone b c ->
  Forall (fun z => ~ a_definition z) (runs true pre (c ++ map inl (10 :: post))) ->
  page ec g (IndStr []) fb (runs true pre (c ++ map inl (10 :: post))) u fb1 -> placed ec (ind_text ind) u w ->
  page ec g IndFalse fb1 rest t fb' -> page ec g ind fb (NApply (NVar r a) [x] [] None 0 :: rest) (w ++ t) fb'.
Proof.
  intros El Nm Nl Ea Py Sk Np Hp He Hq Hqe Ht Vx In_ Hd Hn Hpg Hw Hr. eapply PG_called with (u := u) (fb1 := fb1); [|exact Hw|exact Hr].
  eapply CA_call with (later := later ++ mid) (before := before) (m := mac) (vs := [val]) (us := [b]) (c := map inl pre ++ c ++ map inl (10 :: post)).
  - rewrite El, <- app_assoc. reflexivity.
  - unfold names in *. rewrite map_app, in_app_iff. tauto.
  - exact Ea.
  - intros [H|[]]; discriminate H.
  - apply AV_more; [exact Vx|apply AV_end].
  - apply Forall2_cons; [exact In_|apply Forall2_nil].
  - reflexivity.
  - exact Ht.
  - rewrite Py, Sk. apply chars_before; [exact Hp|exact He|]. intros n.
    assert (Hpost : forall n, ExprSpec.written false SkipNone DSource n (10 :: post) (map inl (10 :: post))).
    { intros n0. pose proof (chars_before (10 :: post) [] [] n0) as K. rewrite !app_nil_r in K. apply K; [cbn [forallb]; rewrite Hq; reflexivity| |intros; apply wr_end; exact Logic.I].
      intros p E. destruct p as [|z p]; [discriminate E|]. cbn [app] in E. injection E as _ E. exact (Hqe p E). }
    assert (Any : forall n, ExprSpec.written false SkipNone DSource n b c).
    { clear -Hd. unfold document in Hd. assert (K : forall k n0 b c, ExprSpec.written false SkipNone k n0 b c -> k = DSource -> forall n, ExprSpec.written false SkipNone k n b c).
      { clear. induction 1 as [k n He|k n x r d H1 H2 H3 H4 H5 H6 H7 H8 H9 IH|k n q body r d H1 H2 H3 H4 IH|k n w r d H1 H2 H3 IH|k n x r d H1 H2 IH|k n o body r d H1 H2 H3 H4 IH|k n x u r d H1 H2 IH]; intros Ek n0; subst k.
        - apply wr_end. exact Logic.I.
        - apply wr_char; [assumption|assumption|assumption|assumption|assumption|intros []|discriminate|intros []|exact (IH eq_refl _)].
        - apply wr_literal; try assumption. exact (IH eq_refl _).
        - discriminate H1.
        - inversion H1.
        - apply wr_quotation; try assumption. exact (IH eq_refl _).
        - apply wr_spelled; try assumption. exact (IH eq_refl _). }
      intros n. exact (K DSource level b c Hd eq_refl n). }
    exact (doc_behind post _ b c n (Any n) Hpost).
  - rewrite Py. discriminate.
  - rewrite runs_before. destruct (runs_begin pre (c ++ map inl (10 :: post)) Np) as (s & i & l & E). rewrite E in Hn, Hpg |- *. apply plain_page; assumption.
Qed.
Lemma use_do r a x val b c u ind w fb fb1 rest t fb' : s_txt a = lit "do" -> ~ In (lit "do") (names later) ->
  c_python (e_parse ec) = false -> c_skip (e_parse ec) = SkipNone ->
  value ec (InText g) x val -> FormatSpec.inserts val b -> document false SkipNone b c ->
  Forall (fun z => ~ a_definition z) (runs true (lit "do {" ++ nl) (c ++ map inl (nl ++ lit "} while ( 0 )"))) ->
  page ec g (IndStr []) fb (runs true (lit "do {" ++ nl) (c ++ map inl (nl ++ lit "} while ( 0 )"))) u fb1 -> placed ec (ind_text ind) u w ->
  page ec g IndFalse fb1 rest t fb' -> page ec g ind fb (NApply (NVar r a) [x] [] None 0 :: rest) (w ++ t) fb'.
Proof.
  intros Ea Nl Py Sk. apply (use_wrapped (lit "do") (firstn 13 (library_defs top)) (skipn 14 (library_defs top)) (lit "do {" ++ nl) (lit "} while ( 0 )") r a x val b c u ind w fb fb1 rest t fb'); try assumption; try reflexivity.
  - intros H. cbn [firstn library_defs names map fst In] in H. repeat (destruct H as [H|H]; [discriminate H|]). exact H.
  - discriminate.
  - intros p E. apply (f_equal (@rev N)) in E. rewrite (rev_app_distr p) in E. vm_compute in E. discriminate E.
  - intros p E. apply (f_equal (@rev N)) in E. rewrite (rev_app_distr p) in E. vm_compute in E. discriminate E.
  - apply FormatCases.turn_of. vm_compute. reflexivity.
Qed.
Lemma use_foo r a x val b c u ind w fb fb1 rest t fb' : s_txt a = lit "foo" -> ~ In (lit "foo") (names later) ->
  c_python (e_parse ec) = false -> c_skip (e_parse ec) = SkipNone ->
  value ec (InText g) x val -> FormatSpec.inserts val b -> document false SkipNone b c ->
  Forall (fun z => ~ a_definition z) (runs true (lit "({" ++ nl) (c ++ map inl (nl ++ lit "})"))) ->
  page ec g (IndStr []) fb (runs true (lit "({" ++ nl) (c ++ map inl (nl ++ lit "})"))) u fb1 -> placed ec (ind_text ind) u w ->
  page ec g IndFalse fb1 rest t fb' -> page ec g ind fb (NApply (NVar r a) [x] [] None 0 :: rest) (w ++ t) fb'.
Proof.
  intros Ea Nl Py Sk. apply (use_wrapped (lit "foo") (firstn 12 (library_defs top)) (skipn 13 (library_defs top)) (lit "({" ++ nl) (lit "})") r a x val b c u ind w fb fb1 rest t fb'); try assumption; try reflexivity.
  - intros H. cbn [firstn library_defs names map fst In] in H. repeat (destruct H as [H|H]; [discriminate H|]). exact H.
  - discriminate.
  - intros p E. apply (f_equal (@rev N)) in E. rewrite (rev_app_distr p) in E. vm_compute in E. discriminate E.
  - intros p E. apply (f_equal (@rev N)) in E. rewrite (rev_app_distr p) in E. vm_compute in E. discriminate E.
  - apply FormatCases.turn_of. vm_compute. reflexivity.
Qed.
End Wrap.

(** ** ($do (`x("a.");)) *)
Definition do_body : text := lit "x(" ++ quoted (lit "a.") ++ lit ");".
Definition do_parts : contents := map inl (lit "x(") ++ inr (NStr (raw (quoted (lit "a.")))) :: map inl (lit ");").
Definition do_text : text := lit "do {" ++ nl ++ do_body ++ nl ++ lit "} while ( 0 )".
Definition do_pieces : list node := runs true (lit "do {" ++ nl) (do_parts ++ map inl (nl ++ lit "} while ( 0 )")).
Lemma do_case : document false SkipNone do_body do_parts /\ Forall (fun z => ~ a_definition z) do_pieces /\
  page lib_ec (library_defs lib_top) (IndStr []) untold do_pieces do_text untold /\ placed lib_ec (ind_text (IndStr [])) do_text do_text /\
  pp (with_library lib_top lib_input lib_world) lib_config 3 60 (lit "($import stdlib)($do (`" ++ do_body ++ lit "))") lib_input lib_output process0 = Ok (PP true do_text None None false 0).
Proof.
  split; [|split; [|split; [|split]]].
  - unfold document, do_body, do_parts. cbn [app map lit].
    change (lit "x(" ++ quoted (lit "a.") ++ lit ");") with (120 :: 40 :: 34 :: lit "a." ++ 34 :: lit ");").
    assert (Ch : forall c n r d, ps_ANY c = true -> c <> 34 -> c <> 39 -> (c = 40 -> exists x y, r = x :: y /\ x <> 36 /\ x <> 96) -> ExprSpec.written false SkipNone DSource (depth_behind c n) r d -> ExprSpec.written false SkipNone DSource n (c :: r) (inl c :: d)).
    { intros c n r d H1 H2 H3 H4 H5. apply wr_char; [apply ps_ANY_spec, H1|exact H2|exact H3| | |intros []|discriminate|intros []|exact H5].
      - intros [y E]. injection E as E1 E2. destruct (H4 E1) as (z & l & -> & Z1 & _). injection E2 as E2 _. contradiction.
      - intros [y E]. injection E as E1 E2. destruct (H4 E1) as (z & l & -> & _ & Z2). injection E2 as E2 _. contradiction. }
    change (map inl (lit "x(") ++ inr (NStr (raw (quoted (lit "a.")))) :: map inl (lit ");")) with (inl 120 :: inl 40 :: inr (NStr (raw (34 :: lit "a." ++ [34]))) :: map (@inl N node) (lit ");")).
    apply Ch; [reflexivity|discriminate|discriminate|discriminate|]. apply Ch; [reflexivity|discriminate|discriminate|intros _; eexists _, _; split; [reflexivity|split; discriminate]|].
    apply wr_literal; [reflexivity|left; reflexivity| |].
    + repeat (apply li_char; [discriminate|discriminate|]). apply li_nil.
    + change (lit ");") with [41; 59]. apply Ch; [reflexivity|discriminate|discriminate|discriminate|]. apply Ch; [reflexivity|discriminate|discriminate|discriminate|]. apply wr_end. exact Logic.I.
  - assert (E : exists a b c, do_pieces = [NPlain a b false; NStr c; NPlain (raw (lit ");" ++ nl ++ lit "} while ( 0 )")) IndFalse false]) by (do 3 eexists; vm_compute; reflexivity).
    destruct E as (a & b & c & ->). repeat constructor; intros [].
  - assert (E : do_pieces = [NPlain (raw (lit "do {" ++ nl ++ lit "x(")) IndFalse false; NStr (raw (quoted (lit "a."))); NPlain (raw (lit ");" ++ nl ++ lit "} while ( 0 )")) IndFalse false]) by (vm_compute; reflexivity).
    rewrite E. replace do_text with ((lit "do {" ++ nl ++ lit "x(") ++ quoted (lit "a.") ++ (lit ");" ++ nl ++ lit "} while ( 0 )") ++ []) by (vm_compute; reflexivity).
    apply PG_run; [reflexivity|]. cbn [indent_then]. apply PG_string. apply PG_run; [reflexivity|]. apply PG_end.
  - apply (placed_lines' lib_ec _ [lit "do {"; do_body; lit "} while ( 0 )"]); [reflexivity|discriminate|vm_compute; reflexivity|vm_compute; reflexivity].
  - vm_compute. reflexivity.
Qed.

(** ** ($foo (`x("a.");)) *)
Definition foo_text : text := lit "({" ++ nl ++ do_body ++ nl ++ lit "})".
Definition foo_pieces : list node := runs true (lit "({" ++ nl) (do_parts ++ map inl (nl ++ lit "})")).
Lemma foo_case : document false SkipNone do_body do_parts /\ Forall (fun z => ~ a_definition z) foo_pieces /\
  page lib_ec (library_defs lib_top) (IndStr []) untold foo_pieces foo_text untold /\ placed lib_ec (ind_text (IndStr [])) foo_text foo_text /\
  pp (with_library lib_top lib_input lib_world) lib_config 3 60 (lit "($import stdlib)($foo (`" ++ do_body ++ lit "))") lib_input lib_output process0 = Ok (PP true foo_text None None false 0).
Proof.
  split; [|split; [|split; [|split]]].
  - apply do_case.
  - assert (E : exists a b c, foo_pieces = [NPlain a b false; NStr c; NPlain (raw (lit ");" ++ nl ++ lit "})")) IndFalse false]) by (do 3 eexists; vm_compute; reflexivity).
    destruct E as (a & b & c & ->). repeat constructor; intros [].
  - assert (E : foo_pieces = [NPlain (raw (lit "({" ++ nl ++ lit "x(")) IndFalse false; NStr (raw (quoted (lit "a."))); NPlain (raw (lit ");" ++ nl ++ lit "})")) IndFalse false]) by (vm_compute; reflexivity).
    rewrite E. replace foo_text with ((lit "({" ++ nl ++ lit "x(") ++ quoted (lit "a.") ++ (lit ");" ++ nl ++ lit "})") ++ []) by (vm_compute; reflexivity).
    apply PG_run; [reflexivity|]. cbn [indent_then]. apply PG_string. apply PG_run; [reflexivity|]. apply PG_end.
  - apply (placed_lines' lib_ec _ [lit "({"; do_body; lit "})"]); [reflexivity|discriminate|vm_compute; reflexivity|vm_compute; reflexivity].
  - vm_compute. reflexivity.
Qed.
