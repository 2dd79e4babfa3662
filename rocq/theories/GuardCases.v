(** * The library of headers (proofs only) *)
From Coq Require Import List NArith ZArith Bool String Lia ZifyBool ZifyNat ZifyN.
From Verif Require FormatSpec FormatFacts FormatCases TextSpec TextFacts TextCases.
From Verif Require Import PyStr PyStrFacts Ast Lex LexSpec ProtectSpec QuoteSpec LexFacts LexFacts2 LexCases Parse ParseSpec ParseFacts3 PpFacts HeaderFacts Final FinalSpec Shell ShellSpec Eval Builtin Builtin2 EnvSpec EvalSpec EvalFacts TrimSpec TrimCases CodecFacts Pp PpSpec PpCases ProtectCases ExprSpec ExprShow DocSpec ExprCases CoreSpec CoreFacts CoreCases RunSpec RunFacts RunFacts2 RunCases MacroCases SheetSpec SheetFacts SheetCases Eg StdSpec StdFacts StdRun StdCases StdCases2 GuardSpec.
Import ListNotations.
Open Scope list_scope.
Open Scope N_scope.

(** ** The contents of a filled template *)
Definition show_h : node := NApply (NVar (RList []) (raw (lit "h-name"))) [] [] None 0.
Definition parts_of (t : text) : contents := map (fun c => if c =? 64 then inr show_h else inl c) t.
Lemma h_spelled : spelled_construct false SkipNone (CExpr (EApp false true (EVar (VName [] (lit "h-name"))) [] [])) shown_name.
Proof.
  apply sc_expr; [|exact Logic.I]. change shown_name with (lit "($" ++ (if false then [36] else []) ++ [] ++ show_var (VName [] (lit "h-name")) ++ [] ++ lit ")").
  apply sp_app with (g := []) (t := show_var (VName [] (lit "h-name"))) (r := [] ++ lit ")"); [constructor| | | |apply ar_end; constructor].
  - apply sp_var. split; [constructor|ident].
  - split; [intros [H|[H|[H|H]]]; try discriminate H|intros d r' E; discriminate E].
    destruct H as [H|[H|H]]; vm_compute in H; intuition congruence.
  - intros _ _. repeat (apply Forall_cons; [intros [x E]; discriminate E|]). apply Forall_nil.
Qed.
Lemma template_written t : forallb quiet t = true -> forall r d, (forall n, ExprSpec.written false SkipNone DSource n r d) -> (forall c x, r = c :: x -> c <> 36 /\ c <> 96) ->
  forall n, ExprSpec.written false SkipNone DSource n (filled shown_name t ++ r) (parts_of t ++ d).
Proof.
  intros Hq r d Hr Hc. induction t as [|c t IH]; intros n; [exact (Hr n)|]. cbn [forallb] in Hq. apply andb_true_iff in Hq as [Q Hq].
  unfold filled, parts_of. cbn [flat_map map]. fold (filled shown_name t) (parts_of t). destruct (c =? 64) eqn:E.
  - rewrite <- app_assoc. cbn [app]. change show_h with (tree_construct (CExpr (EApp false true (EVar (VName [] (lit "h-name"))) [] []))).
    apply wr_spelled; [exact h_spelled|]. apply IH, Hq.
  - cbn [app]. unfold quiet in Q. apply andb_true_iff in Q as [Q Qa]. rewrite negb_true_iff in Q.
    assert (Nx : forall z y, filled shown_name t ++ r = z :: y -> z <> 36 /\ z <> 96).
    { intros z y Ez. destruct t as [|z' t]; [exact (Hc _ _ Ez)|]. unfold filled in Ez. cbn [flat_map forallb] in Ez, Hq. apply andb_true_iff in Hq as [Q' _]. destruct (z' =? 64).
      - injection Ez as <- _. split; discriminate.
      - injection Ez as <- _. unfold quiet in Q'. lia. }
    apply wr_char; [apply ps_ANY_spec, Qa|lia|lia| | |intros []|discriminate|intros []|apply IH, Hq].
    + intros [y Ey]. injection Ey as _ Ey. destruct (Nx _ _ Ey) as [X1 X2]; first [exact (X1 eq_refl)|exact (X2 eq_refl)].
    + intros [y Ey]. injection Ey as _ Ey. destruct (Nx _ _ Ey) as [X1 X2]; first [exact (X1 eq_refl)|exact (X2 eq_refl)].
Qed.
(** ** Its text *)
Section Pages.
Variable ec : ectx.
(** one line that begins with something else than white space *)
Definition solid (n : text) : Prop := no_break n /\ exists c r, n = c :: r /\ c <> 32 /\ c <> 9.
Lemma margin_none ls : (exists c r, In (c :: r) ls /\ c <> 32 /\ c <> 9) -> margin [] ls.
Proof.
  intros (c & r & Hi & C1 & C2). split; [constructor|]. split; [intros l _ _; exists l; reflexivity|]. intros c' Hb Hp _. destruct c' as [|x c']; [exists []; reflexivity|exfalso].
  destruct (Hp _ Hi) as [b E]; [intros H; inversion H; subst; lia|]. injection E as <- _. inversion Hb; subst; lia.
Qed.
Lemma cut_none l : (exists c r, l = c :: r) \/ l = [] -> (l <> [] -> ~ blank l) -> cut [] l l.
Proof. intros _ H. destruct l as [|c r]; [apply cut_blank; constructor|]. apply (cut_line [] (c :: r)), H. discriminate. Qed.
Lemma laid_none ls : ls <> [] -> laid [] ls (join [10] ls).
Proof.
  induction ls as [|l ls IH]; [contradiction|]. intros _. destruct ls as [|l2 ls]; [apply laid_one|].
  destruct l2 as [|c l2]; [destruct ls as [|l3 ls]|]; [apply laid_end| |]; (apply laid_more; [discriminate|apply IH; discriminate]).
Qed.
Lemma placed_solid i n : solid n -> placed ec i n n.
Proof.
  intros (Hn & c & r & -> & C1 & C2). unfold placed. destruct (e_trim ec); [|reflexivity]. exists [c :: r], [], [c :: r]. split; [discriminate|]. split; [reflexivity|].
  split; [constructor; [exact Hn|constructor]|]. split; [apply margin_none; exists c, r; split; [left; reflexivity|auto]|]. split; [|apply laid_one].
  constructor; [|constructor]. apply (cut_line [] (c :: r)). intros H. inversion H; subst; lia.
Qed.
Variables (g : defs) (n : text).
Hypothesis Gv : gives (values_in [] g) (lit "h-name") (NRaw n).
Hypothesis Sn : solid n.
Lemma show_page ind fb rest t fb' : page ec g IndFalse fb rest t fb' -> page ec g ind fb (show_h :: rest) (n ++ t) fb'.
Proof.
  intros H. unfold show_h. apply PG_applied with (v := NRaw n) (u := n); [|apply SH_value, VT_raw|apply placed_solid, Sn|exact H].
  apply VA_show with (u := n); [|apply VT_raw]. apply VA_name. exact Gv.
Qed.
(** the indentation behind the pieces *)
Definition ind_run (first : bool) (ind : indent) (w : text) : indent :=
  match run first w with x :: _ => indent_then ind x | [] => ind end.
Lemma run_page first ind w fb rest t fb' : page ec g (ind_run first ind w) fb rest t fb' -> page ec g ind fb (run first w ++ rest) (w ++ t) fb'.
Proof.
  unfold ind_run, run. destruct w as [|c w]; [intros H; exact H|]. intros H. cbn [app]. apply (PG_run ec g ind fb (raw (c :: w)) _ false rest (c :: w)); [|exact H].
  unfold front_cut. rewrite andb_false_r. reflexivity.
Qed.
Fixpoint ind_parts (first : bool) (ind : indent) (w t : text) : indent :=
  match t with
  | [] => ind_run first ind w
  | c :: t => if c =? 64 then ind_parts false IndFalse [] t else ind_parts first ind (w ++ [c]) t
  end.
Lemma template_page tpl : forall first ind w fb rest t fb', page ec g (ind_parts first ind w tpl) fb rest t fb' ->
  page ec g ind fb (runs first w (parts_of tpl) ++ rest) (w ++ filled n tpl ++ t) fb'.
Proof.
  induction tpl as [|c tpl IH]; intros first ind w fb rest t fb' H; cbn [ind_parts] in H.
  - cbn [parts_of map runs filled flat_map app]. apply run_page, H.
  - unfold parts_of, filled. cbn [map flat_map]. fold (parts_of tpl) (filled n tpl). destruct (c =? 64).
    + cbn [runs]. rewrite <- app_assoc. apply run_page. cbn [app]. rewrite <- app_assoc. apply show_page. apply (IH false IndFalse []), H.
    + cbn [runs]. replace (w ++ ([c] ++ filled n tpl) ++ t) with ((w ++ [c]) ++ filled n tpl ++ t) by (rewrite <- !app_assoc; reflexivity). apply IH, H.
Qed.
Lemma template_page0 tpl first ind fb rest t fb' : page ec g (ind_parts first ind [] tpl) fb rest t fb' ->
  page ec g ind fb (runs first [] (parts_of tpl) ++ rest) (filled n tpl ++ t) fb'.
Proof. exact (template_page tpl first ind [] fb rest t fb'). Qed.
End Pages.

(** ** The macros *)
Lemma upper_gives ec n : TextSpec.offers ec (lit "upper") -> builtin_gives ec (lit "upper") [NAtom (raw n)] (NRaw (upper n)).
Proof.
  intros Ho. apply (offered_gives ec _ (fun _ => b_str1 upper)); try reflexivity; [exact Ho| |constructor].
  intros cx [|y [|? ?]] st E; try discriminate E. injection E as E. unfold b_str1, arg1. assert (Es : str_of y = Some n) by (rewrite <- str_bare, E; reflexivity). rewrite Es. reflexivity.
Qed.
Lemma upper_solid n : identifier n -> solid (upper n).
Proof.
  intros Hn. assert (U : forall c, name_char c -> name_char (upper_char c)).
  { intros c H. unfold upper_char. destruct (_ && _) eqn:E; [|exact H]. unfold name_char, letter, decimal_digit in *. lia. }
  pose proof (identifier_chars n Hn) as Hc. assert (Hu : Forall name_char (upper n)) by (unfold upper; apply Forall_map; eapply Forall_impl; [|exact Hc]; exact U).
  split.
  - eapply Forall_impl; [|exact Hu]. intros c H. unfold name_char, letter, decimal_digit in H. unfold py_isbreak. lia.
  - destruct n as [|c n]; [destruct Hn|]. inversion Hu as [|c0 l0 H1 H2]; subst. exists (upper_char c), (upper n). split; [reflexivity|]. unfold name_char, letter, decimal_digit in H1. lia.
Qed.
Definition set_name (n : text) : construct := CSet (BName (lit "h-name")) (EApp false true (v "upper") [(false, EVar (VName [] n))] []).
Lemma set_name_ok n : identifier n -> construct_ok false SkipNone (set_name n).
Proof.
  intros Hn. apply co_set; [ident|]. apply wf_app; [apply wf_var; split; [constructor|ident]| |constructor; [|constructor]|constructor].
  - intros _ _. repeat (apply Forall_cons; [intros [x E]; discriminate E|]). apply Forall_nil.
  - split; [apply wf_var; split; [constructor|exact Hn]|reflexivity].
Qed.
Definition begin_tail : text := skipn 9 header_begin.
Lemma begin_cut : header_begin = lit "#ifndef " ++ 64 :: begin_tail.
Proof. vm_compute. reflexivity. Qed.
Lemma begin_ind : ind_parts false IndFalse [] begin_tail = IndStr [].
Proof. vm_compute. reflexivity. Qed.
Lemma parts_begin : parts_of header_begin = map inl (lit "#ifndef ") ++ inr show_h :: parts_of begin_tail.
Proof. rewrite begin_cut. generalize begin_tail. intros l. unfold parts_of. rewrite map_app. reflexivity. Qed.
Lemma filled_begin n : filled n header_begin = lit "#ifndef " ++ n ++ filled n begin_tail.
Proof. rewrite begin_cut. generalize begin_tail. intros l. unfold filled. rewrite flat_map_app. reflexivity. Qed.
Lemma runs_head x d : runs true [] (inl 10 :: inr x :: inl 10 :: map inl (lit "#ifndef ") ++ inr show_h :: d) =
  NPlain (raw [10]) (IndStr []) false :: x :: NPlain (raw (10 :: lit "#ifndef ")) IndFalse false :: show_h :: runs false [] d.
Proof. reflexivity. Qed.
Definition begin_body : text := 10 :: lit "($set h-name ($upper ($name)))" ++ 10 :: filled shown_name header_begin.
Lemma light_cut : light_defs = firstn 9 light_defs ++ [(lit "h-begin", EMacro [lit "name"] begin_body)].
Proof. reflexivity. Qed.
Lemma begin_turn n : FormatSpec.replaced_in_turn (combine [lit "name"] [n]) begin_body (10 :: show_construct (set_name n) ++ 10 :: filled shown_name header_begin ++ []).
Proof.
  rewrite app_nil_r. assert (Es : show_construct (set_name n) = lit "($set h-name ($upper " ++ n ++ lit "))") by (cbn [show_construct set_name show show_binder v show_var flat_map fst snd star app]; rewrite app_nil_r, <- !app_assoc; cbn [app]; rewrite <- !app_assoc; reflexivity).
      rewrite Es, <- !app_assoc. apply FormatCases.turn_of. vm_compute. reflexivity.
Qed.
Lemma begin_doc n : identifier n -> document false SkipNone (10 :: show_construct (set_name n) ++ 10 :: filled shown_name header_begin ++ []) (inl 10 :: inr (tree_construct (set_name n)) :: inl 10 :: parts_of header_begin ++ []).
Proof.
  intros Hn. pose proof (set_name_ok n Hn) as W. revert W. generalize (set_name n). intros c1 W.
      apply wr_char; [apply ps_ANY_spec; reflexivity|discriminate|discriminate|no_begin|no_begin|intros []|discriminate|intros []|]. apply wr_construct; [exact W|].
      apply wr_char; [apply ps_ANY_spec; reflexivity|discriminate|discriminate|no_begin|no_begin|intros []|discriminate|intros []|].
      apply template_written; [vm_compute; reflexivity| |discriminate]. intros n0. apply wr_end. exact Logic.I.
Qed.
Section Uses.
Variables (ec : ectx) (later before : defs).
Notation g := (later ++ light_defs ++ before).
Definition begin_pieces (n : text) (l : list node) : list node :=
  NPlain (raw [10]) (IndStr []) false :: tree_construct (set_name n) :: NPlain (raw (10 :: lit "#ifndef ")) IndFalse false :: show_h :: l.
Lemma begin_called r a x val n fb : s_txt a = lit "h-begin" -> ~ In (lit "h-begin") (names later) ->
  c_python (e_parse ec) = false -> c_skip (e_parse ec) = SkipNone -> identifier n -> value ec (InText g) x val -> FormatSpec.inserts val n ->
  called ec g fb (NApply (NVar r a) [x] [] None 0) (OPieces (begin_pieces n (runs false [] (parts_of begin_tail)))) fb.
Proof.
  intros Ea Nl Py Sk Hn Vx In_.
  eapply CA_call with (later := later ++ firstn 9 light_defs) (before := before) (m := lit "h-begin") (ps := [lit "name"]) (body := begin_body) (vs := [val]) (us := [n]).
  - rewrite light_cut at 1. rewrite <- !app_assoc. reflexivity.
  - unfold names. rewrite map_app, in_app_iff. intros [H|H]; [exact (Nl H)|]. cbn [firstn light_defs map fst In] in H. repeat (destruct H as [H|H]; [discriminate H|]). exact H.
  - exact Ea.
  - intros [H|[]]; discriminate H.
  - apply AV_more; [exact Vx|apply AV_end].
  - apply Forall2_cons; [exact In_|apply Forall2_nil].
  - reflexivity.
  - exact (begin_turn n).
  - rewrite Py, Sk. exact (begin_doc n Hn).
  - rewrite Py. discriminate.
  - rewrite app_nil_r, parts_begin, runs_head. apply RP_definition. apply Exists_cons_tl, Exists_cons_hd. exact Logic.I.
Qed.
Lemma begin_page n l t fb fb' : TextSpec.offers ec (lit "upper") -> ~ In (lit "upper") (names g) ->
  identifier n -> ~ In 45 n -> ~ In n (names g) -> ~ In n special_forms -> (forall imported, e_builtin ec imported n = None) ->
  page ec ((lit "h-name", EValue (NRaw (upper n))) :: g) IndFalse fb l t fb' ->
  page ec g (IndStr []) fb (begin_pieces n l) ([10] ++ (if e_trim ec then [] else [10]) ++ lit "#ifndef " ++ upper n ++ t) fb'.
Proof.
  intros Ou Nu Hn Hd Nn Ns Nb Hp. pose proof (upper_solid n Hn) as Sn. unfold begin_pieces. cbn [tree_construct set_name tree_binder ExprSpec.tree v tree_region tree_name map fst snd spliced].
  apply (PG_run ec g (IndStr []) fb (raw [10]) (IndStr []) false _ [10]); [unfold front_cut; rewrite andb_false_r; reflexivity|]. cbn [indent_then].
  eapply PG_set with (es := [(lit "h-name", EValue (NRaw (upper n)))]).
  - intros [H|[]]. discriminate H.
  - apply (DF_value ec g (raw (lit "h-name"))). eapply VA_builtin with (vs := [NAtom (raw n)]); [|intros [H|H]; [discriminate H|exact (Nu H)]|apply upper_gives, Ou].
    apply AV_more; [|apply AV_end]. apply VA_atom; [|exact Nb|exact Ns|exact Hd]. intros [H|H]; [|exact (Nn H)]. cbn [fst s_txt raw] in H. apply Hd. rewrite <- H. right; left; reflexivity.
  - cbn [trimmed_next app]. replace ((if e_trim ec then [] else [10]) ++ lit "#ifndef " ++ upper n ++ t) with ((if e_trim ec then lit "#ifndef " else 10 :: lit "#ifndef ") ++ upper n ++ t) by (destruct (e_trim ec); reflexivity).
    apply PG_run.
    { unfold front_cut. cbn [s_txt raw]. destruct (e_trim ec); cbn [andb]; [|reflexivity]. exists [10]. split; [reflexivity|]. split; [constructor; [reflexivity|constructor]|]. intros H. discriminate H. }
    cbn [indent_then]. assert (Gv : gives (values_in [] ((lit "h-name", EValue (NRaw (upper n))) :: g)) (lit "h-name") (NRaw (upper n))) by apply at_front.
    apply (show_page ec _ (upper n) Gv Sn). exact Hp.
Qed.
Lemma use_begin r a x val n N fb rest t fb' : s_txt a = lit "h-begin" -> ~ In (lit "h-begin") (names later) ->
  c_python (e_parse ec) = false -> c_skip (e_parse ec) = SkipNone -> TextSpec.offers ec (lit "upper") -> ~ In (lit "upper") (names g) ->
  identifier n -> ~ In 45 n -> ~ In n (names g) -> ~ In n special_forms -> (forall imported, e_builtin ec imported n = None) ->
  value ec (InText g) x val -> FormatSpec.inserts val n -> Forall2 TextSpec.to_capital n N ->
  page ec ((lit "h-name", EValue (NRaw N)) :: g) (IndStr []) fb rest t fb' ->
  page ec g (IndStr []) fb (NApply (NVar r a) [x] [] None 0 :: rest) ([10] ++ (if e_trim ec then [] else [10]) ++ filled N header_begin ++ t) fb'.
Proof.
  intros Ea Nl Py Sk Ou Nu Hn Hd Nn Ns Nb Vx In_ HN Hp.
  assert (EN : N = upper n).
  { clear -HN. induction HN as [|c d n N H _ IH]; [reflexivity|]. cbn [upper map]. f_equal; [|exact IH]. unfold TextSpec.to_capital, TextSpec.small in H. unfold upper_char. destruct (_ && _) eqn:E; lia. }
  subst N. pose proof (upper_solid n Hn) as Sn. rewrite filled_begin, <- !app_assoc.
  assert (Gv : gives (values_in [] ((lit "h-name", EValue (NRaw (upper n))) :: g)) (lit "h-name") (NRaw (upper n))) by apply at_front.
  rewrite <- begin_ind in Hp. pose proof (template_page0 ec _ (upper n) Gv Sn begin_tail false IndFalse _ _ _ _ Hp) as K.
  pose proof (begin_called r a x val n fb Ea Nl Py Sk Hn Vx In_) as C. revert C K. generalize (runs false [] (parts_of begin_tail)) (filled (upper n) begin_tail). intros l u C K.
  eapply PG_pieces; [exact C|]. cbn [indented]. change (begin_pieces n l ++ rest) with (begin_pieces n (l ++ rest)). apply begin_page; assumption.
Qed.
Lemma use_end r a N ind fb rest t fb' : s_txt a = lit "h-end" -> ~ In (lit "h-end") (names later) ->
  c_python (e_parse ec) = false -> c_skip (e_parse ec) = SkipNone -> gives (values_in [] g) (lit "h-name") (NRaw N) -> solid N -> ind_text ind = [] ->
  page ec g IndFalse fb rest t fb' -> page ec g ind fb (NApply (NVar r a) [] [] None 0 :: rest) (filled N header_end ++ t) fb'.
Proof.
  intros Ea Nl Py Sk Gv Sn Ei Hp.
  assert (Pg : page ec g (IndStr []) fb (runs true [] (parts_of header_end)) (filled N header_end) fb).
  { pose proof (template_page0 ec g N Gv Sn header_end true (IndStr []) fb [] [] fb (PG_end _ _ _ _)) as K. rewrite !app_nil_r in K. exact K. }
  eapply PG_called with (u := filled N header_end) (fb1 := fb); [| |exact Hp].
  - eapply CA_call with (later := later ++ firstn 8 light_defs) (before := skipn 9 light_defs ++ before) (m := lit "h-end") (vs := []) (us := []) (c := parts_of header_end ++ []).
    + rewrite <- app_assoc. reflexivity.
    + unfold names. rewrite map_app, in_app_iff. intros [H|H]; [exact (Nl H)|]. cbn [firstn light_defs map fst In] in H. repeat (destruct H as [H|H]; [discriminate H|]). exact H.
    + exact Ea.
    + intros [].
    + apply AV_end.
    + apply Forall2_nil.
    + reflexivity.
    + apply FormatCases.turn_of. reflexivity.
    + rewrite Py, Sk. rewrite <- (app_nil_r (filled shown_name header_end)). apply template_written; [vm_compute; reflexivity| |discriminate]. intros n0. apply wr_end. exact Logic.I.
    + rewrite Py. discriminate.
    + rewrite app_nil_r. assert (E : exists x y l, runs true [] (parts_of header_end) = x :: y :: l) by (do 3 eexists; vm_compute; reflexivity). destruct E as (x & y & l & E). 
      assert (Nd : Forall (fun z => ~ a_definition z) (runs true [] (parts_of header_end))) by (vm_compute; repeat constructor; intros []).
      rewrite E in Pg, Nd |- *. apply RP_many; assumption.
  - cbn [an_application]. rewrite Ei. destruct Sn as (Hb & c & w & EN & C1 & C2). unfold placed. destruct (e_trim ec); [|reflexivity].
    set (ls := [[]; lit "#undef " ++ N ++ lit "_VAR"; lit "#undef " ++ N ++ lit "_VAR_INIT"; lit "#undef " ++ N ++ lit "_INL"; lit "#endif"; []]).
    exists ls, [], ls. assert (El : filled N header_end = join [10] ls) by (unfold ls; cbn [join]; rewrite <- !app_assoc; vm_compute; reflexivity).
    split; [discriminate|]. split; [exact El|]. split.
    + assert (B : forall p q, forallb (fun c => negb (py_isbreak c)) p = true -> forallb (fun c => negb (py_isbreak c)) q = true -> no_break (p ++ N ++ q)).
      { intros p q Hp1 Hq. assert (F : forall l, forallb (fun c => negb (py_isbreak c)) l = true -> no_break l) by (intros l Hl; apply Forall_forall; intros z Hz; rewrite forallb_forall in Hl; specialize (Hl z Hz); destruct (py_isbreak z); [discriminate Hl|reflexivity]).
        unfold no_break in *. rewrite !Forall_app. auto. }
      repeat (apply Forall_cons; [first [apply B; reflexivity|repeat constructor]|]). apply Forall_nil.
    + split; [apply margin_none; exists 35, (lit "endif"); split; [do 4 right; left; reflexivity|split; discriminate]|]. split; [|rewrite El; apply laid_none; discriminate].
      assert (Cl : forall l, l = [] \/ (exists r, l = 35 :: r) -> cut [] l l) by (intros l [-> |[r0 ->]]; [apply cut_blank; constructor|apply (cut_line [] (35 :: r0)); intros H; inversion H; subst; lia]).
      repeat (apply Forall2_cons; [apply Cl; first [left; reflexivity|right; eexists; reflexivity]|]). apply Forall2_nil.
Qed.
End Uses.
