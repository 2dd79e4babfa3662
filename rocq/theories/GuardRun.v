(** * A header, from its source to its text (proofs only) *)
From Coq Require Import List NArith ZArith Bool String Lia ZifyBool ZifyNat ZifyN.
From Verif Require FormatSpec TextSpec TextFacts ConfFacts ReadFacts.
From Verif Require Import PyStr PyStrFacts Ast Lex LexSpec ProtectSpec QuoteSpec LexFacts LexFacts2 LexCases Parse ParseSpec PpFacts Final FinalSpec FinalFacts Shell ShellSpec Eval Builtin Builtin2 EnvSpec EvalSpec TrimSpec Pp PpSpec PpCases ExprSpec ExprShow ExprCases CoreSpec CoreFacts RunSpec RunFacts2 RunCases SheetSpec SheetFacts SheetCases Eg StdSpec StdRun StdCases StdCases2 ConfSpec ReadCases ReadStd GuardSpec GuardCases.
Import ListNotations.
Open Scope list_scope.
Open Scope N_scope.

(** ** The text of the library *)
Record item := Item { i_name : text; i_gap : text; i_params : list (text * text); i_body : text; i_behind : text }.
Definition item_text (i : item) : text := lit "($macro" ++ [32] ++ i_name i ++ [32] ++ 40 :: i_gap i ++ param_text (i_params i) ++ 41 :: i_body i ++ lit ")".
Definition item_node (i : item) : node := NMacro (raw (i_name i)) (map raw (map fst (i_params i))) (i_body i).
Definition item_entry (i : item) : text * entry := (i_name i, EMacro (map fst (i_params i)) (i_body i)).
Definition body_at (k : nat) : text := match nth_error light_defs k with Some (_, EMacro _ b) => b | _ => [] end.
Definition light_items : list item :=
  [ Item (lit "h-begin") [] [(lit "name", [])] (body_at 9) [10; 10];
    Item (lit "h-end") [] [] (body_at 8) [10; 10];
    Item (lit "h-begin-named") [] [] (body_at 7) [10; 10];
    Item (lit "implement") [] [(lit "name", [])] (body_at 6) [10; 10];
    Item (lit "implement-named") [] [] (body_at 5) [10; 10];
    Item (lit "extern-c-begin") [] [] (body_at 4) [10; 10];
    Item (lit "extern-c-end") [] [] (body_at 3) [10; 10];
    Item (lit "var") [32] [(lit "dec", [32])] (body_at 2) [10];
    Item (lit "var-init") [32] [(lit "dec", [32]); (lit "init", [32])] (body_at 1) [10];
    Item (lit "inline") [] [] (body_at 0) [10] ].
Definition remark : text := firstn 317 (skipn 3 (lit h_light_yu)).
Definition items_text (l : list item) : text := flat_map (fun i => item_text i ++ i_behind i) l.
Lemma light_text : lit h_light_yu = (lit "($!" ++ remark ++ lit ")") ++ [10; 10] ++ items_text light_items.
Proof. vm_compute. reflexivity. Qed.
Lemma light_entries : rev (map item_entry light_items) = light_defs.
Proof. vm_compute. reflexivity. Qed.
Definition gap_ok (g : text) : bool := match g with [] => false | _ => forallb (fun c => c =? 10) g end.
Definition gap_parts (i : item) : parts := inr [item_node i] :: map inl (i_behind i).
Definition items_parts (l : list item) : parts := flat_map gap_parts l.
Lemma gap_sheet dirs read h kn g r d kn' : forallb (fun c => c =? 10) g = true -> sheet false SkipNone dirs read h kn r d kn' -> sheet false SkipNone dirs read h kn (g ++ r) (map inl g ++ d) kn'.
Proof. induction g as [|c g IH]; [intros _ H; exact H|]. cbn [forallb app map]. intros Hg H. apply andb_true_iff in Hg as [Hc Hg]. apply N.eqb_eq in Hc. subst c. schar. apply IH; assumption. Qed.
Lemma item_sheet dirs read h kn i r d kn' : spelled_construct false SkipNone (CMacro (i_name i) (map fst (i_params i)) (i_body i)) (item_text i) -> gap_ok (i_behind i) = true ->
  sheet false SkipNone dirs read h kn r d kn' -> sheet false SkipNone dirs read h kn ((item_text i ++ i_behind i) ++ r) (gap_parts i ++ d) kn'.
Proof.
  intros Hs Hg H. rewrite <- app_assoc. unfold gap_parts. cbn [app]. change (item_node i) with (tree_construct (CMacro (i_name i) (map fst (i_params i)) (i_body i))).
  apply SH_spelled; [exact Hs|]. apply gap_sheet; [|exact H]. unfold gap_ok in Hg. destruct (i_behind i); [discriminate|exact Hg].
Qed.
Lemma items_spelled : Forall (fun i => spelled_construct false SkipNone (CMacro (i_name i) (map fst (i_params i)) (i_body i)) (item_text i) /\ gap_ok (i_behind i) = true) light_items.
Proof.
  repeat (apply Forall_cons; [split; [|reflexivity];
    apply sc_macro; [apply identifier_dec; reflexivity|repeat constructor; left; reflexivity|repeat constructor; left; reflexivity|repeat constructor; left; reflexivity| |apply permitted_dec; vm_compute; reflexivity|apply balanced_dec; vm_compute; reflexivity]|]); [..|apply Forall_nil].
  all: repeat first [exact Logic.I | apply identifier_dec; reflexivity | split | left; reflexivity | right; discriminate | constructor].
Qed.
Lemma items_sheet dirs read h kn l : Forall (fun i => spelled_construct false SkipNone (CMacro (i_name i) (map fst (i_params i)) (i_body i)) (item_text i) /\ gap_ok (i_behind i) = true) l ->
  sheet false SkipNone dirs read h kn (items_text l) (items_parts l) kn.
Proof. induction 1 as [|i l [Hs Hg] _ IH]; [apply SH_end|]. apply item_sheet; assumption. Qed.
Definition light_parts : parts := inr [NComment] :: map inl [10; 10] ++ items_parts light_items.
Lemma light_sheet dirs read h kn : sheet false SkipNone dirs read h kn (lit h_light_yu) light_parts kn.
Proof.
  rewrite light_text. assert (R : spelled_construct false SkipNone (CRemoved remark) (lit "($!" ++ remark ++ lit ")")) by (apply sc_removed; [apply permitted_dec; vm_compute; reflexivity|apply balanced_dec; vm_compute; reflexivity]).
  unfold light_parts. change NComment with (tree_construct (CRemoved remark)). apply SH_spelled; [exact R|]. apply gap_sheet; [reflexivity|]. apply items_sheet, items_spelled.
Qed.
Definition item_pieces (i : item) : list node := [item_node i; NPlain (raw (i_behind i)) (IndStr []) false].
Lemma light_pieces : pieces true [] light_parts = NComment :: NPlain (raw [10; 10]) (IndStr []) false :: flat_map item_pieces light_items.
Proof. vm_compute. reflexivity. Qed.
Lemma cut_gap ec g : e_trim ec = true -> forallb (fun c => c =? 10) g = true -> front_cut ec true (s_txt (raw g)) [].
Proof.
  intros T Hg. unfold front_cut. rewrite T. cbn [andb s_txt raw]. exists g. split; [rewrite app_nil_r; reflexivity|]. split; [|exact Logic.I].
  apply Forall_forall. intros c Hc. rewrite forallb_forall in Hg. specialize (Hg c Hc). apply N.eqb_eq in Hg. subst c. reflexivity.
Qed.
Lemma items_page ec fb rest t fb' l : e_trim ec = true -> Forall (fun i => NoDup (map fst (i_params i)) /\ gap_ok (i_behind i) = true) l ->
  forall g, page ec (rev (map item_entry l) ++ g) (IndStr []) fb rest t fb' -> page ec g (IndStr []) fb (flat_map item_pieces l ++ rest) t fb'.
Proof.
  intros T H. induction H as [|i l [Hn Hg] _ IH]; intros g Hp; [exact Hp|]. cbn [flat_map item_pieces app].
  assert (Em : map s_txt (map raw (map fst (i_params i))) = map fst (i_params i)) by (rewrite map_map; apply map_id).
  unfold item_node. apply PG_macro; rewrite Em; [exact Hn|]. cbn [trimmed_next s_txt raw].
  change t with ([] ++ t). apply PG_run; [apply cut_gap; [exact T|]; unfold gap_ok in Hg; destruct (i_behind i); [discriminate Hg|exact Hg]|]. cbn [indent_then].
  apply IH. cbn [map rev] in Hp. rewrite <- app_assoc in Hp. exact Hp.
Qed.
Lemma light_page ec fb rest t fb' g : e_trim ec = true -> page ec (light_defs ++ g) (IndStr []) fb rest t fb' -> page ec g (IndStr []) fb (in_place (pieces true [] light_parts) ++ rest) t fb'.
Proof.
  intros T Hp. rewrite light_pieces. cbn [in_place app]. apply PG_begin. apply PG_removed. cbn [trimmed_next]. change t with ([] ++ t). apply PG_run; [apply cut_gap; [exact T|reflexivity]|]. cbn [indent_then].
  rewrite <- app_assoc. apply items_page; [exact T| |].
  - repeat (apply Forall_cons; [split; [|reflexivity]|]); [..|apply Forall_nil].
    all: cbn [i_params map fst]; repeat (apply NoDup_cons; [intros H; repeat (destruct H as [H|H]; [discriminate H|]); exact H|]); apply NoDup_nil.
  - rewrite light_entries. cbn [app]. apply PG_finish. exact Hp.
Qed.

(** ** The run *)
Definition begin_call (n : text) : construct := CExpr (EApp false true (v "h-begin") [(false, EVar (VName [] n))] []).
Definition end_call : construct := CExpr (EApp false true (v "h-end") [] []).
Lemma begin_call_ok n : identifier n -> construct_ok false SkipNone (begin_call n).
Proof.
  intros Hn. apply co_expr; [|exact Logic.I]. apply wf_app; [apply wf_var; split; [constructor|ident]| |constructor; [|constructor]|constructor].
  - intros _ _. repeat (apply Forall_cons; [intros [x E]; discriminate E|]). apply Forall_nil.
  - split; [apply wf_var; split; [constructor|exact Hn]|reflexivity].
Qed.
Lemma end_call_ok : construct_ok false SkipNone end_call.
Proof.
  apply co_expr; [|exact Logic.I]. apply wf_app; [apply wf_var; split; [constructor|ident]| |constructor|constructor].
  intros _ _. repeat (apply Forall_cons; [intros [x E]; discriminate E|]). apply Forall_nil.
Qed.
Lemma body_sheet dirs read h kn b r d kn' : Forall declaration_char b -> (forall c x, r = c :: x -> c <> 36 /\ c <> 96) -> sheet false SkipNone dirs read h kn r d kn' ->
  sheet false SkipNone dirs read h kn (b ++ r) (map inl b ++ d) kn'.
Proof.
  intros Hb Hr H. induction Hb as [|c b Hc Hb IH]; [exact H|]. cbn [app map].
  assert (Nx : forall z x, b ++ r = z :: x -> z <> 36 /\ z <> 96).
  { intros z x E. destruct b as [|c' b]; [exact (Hr z x E)|]. injection E as <- _. inversion Hb as [|? ? Hc' _]; subst. unfold declaration_char in Hc'. cbn [In] in Hc'. intuition lia. }
  assert (Hc0 : permitted c /\ c <> 34 /\ c <> 39) by (unfold declaration_char in Hc; cbn [In] in Hc; unfold permitted, line_end; intuition lia). destruct Hc0 as (C1 & C2 & C3).
  apply SH_char; [exact C1|exact C2|exact C3| | |intros []|discriminate|exact IH].
  - intros [y Ey]. injection Ey as _ Ey. destruct (Nx _ _ Ey) as [X1 X2]. exact (X1 eq_refl).
  - intros [y Ey]. injection Ey as _ Ey. destruct (Nx _ _ Ey) as [X1 X2]. exact (X2 eq_refl).
Qed.
Definition header_parts (n b : text) : parts := inr (in_place (pieces true [] light_parts)) :: inr [tree_construct (begin_call n)] :: map inl (10 :: b ++ [10]) ++ [inr [tree_construct end_call]].
Lemma header_shown n b : header_source n b = import_text [32] (lit "h-light") [] ++ show_construct (begin_call n) ++ (10 :: b ++ [10]) ++ show_construct end_call ++ [].
Proof.
  assert (E1 : show_construct (begin_call n) = lit "($h-begin " ++ n ++ lit ")") by (cbn [show_construct begin_call show v show_var flat_map fst snd star app]; rewrite app_nil_r; cbn [app]; rewrite ?app_nil_r, <- ?app_assoc; reflexivity).
  rewrite E1. unfold header_source. change (import_text [32] (lit "h-light") []) with (lit "($import h-light)"). change (show_construct end_call) with (lit "($h-end)"). rewrite app_nil_r.
  change (lit "($import h-light)($h-begin ") with (lit "($import h-light)" ++ lit "($h-begin "). cbn [app]. rewrite <- ?app_assoc. cbn [app]. rewrite <- ?app_assoc. reflexivity.
Qed.
Lemma header_sheet dirs read kn n b p : identifier n -> Forall declaration_char b -> library_file read dirs (lit "h-light.yu") p (lit h_light_yu) -> ~ In (lit "h-light.yu") kn ->
  sheet false SkipNone dirs read 1 kn (header_source n b) (header_parts n b) (lit "h-light.yu" :: kn).
Proof.
  intros Hn Hb Hf Hk. rewrite header_shown. unfold header_parts. pose proof (begin_call_ok n Hn) as W. pose proof end_call_ok as W2. revert W. generalize (begin_call n). intros c1 W.
  apply SH_library with (p := p) (t := lit h_light_yu) (u := lit h_light_yu) (kn1 := lit "h-light.yu" :: kn); [ident|repeat constructor|constructor|exact Hk|exact Hf| |apply light_sheet|].
  - apply unified_id. intros H. assert (E : existsb (fun c => c =? 13) (lit h_light_yu) = true) by (apply existsb_exists; exists 13; split; [exact H|reflexivity]). vm_compute in E. discriminate E.
  - apply SH_construct; [exact W|]. apply body_sheet.
    + constructor; [right; left; reflexivity|]. apply Forall_app. split; [exact Hb|]. constructor; [right; left; reflexivity|constructor].
    + intros c x E. change (show_construct end_call ++ []) with (lit "($h-end)") in E. injection E as <- _. split; discriminate.
    + apply SH_construct; [exact W2|]. apply SH_end.
Qed.
Lemma header_pieces n b : pieces true [] (header_parts n b) = in_place (pieces true [] light_parts) ++ tree_construct (begin_call n) :: NPlain (raw (10 :: b ++ [10])) (IndStr []) false :: [tree_construct end_call].
Proof.
  assert (K : forall w c x, pieces false w (map inl c ++ [inr [x]]) = run false (w ++ c) ++ [x]).
  { intros w c x. revert w. induction c as [|y c IH]; intros w; [cbn [map app]; cbn [pieces andb]; unfold run; cbn [app]; rewrite !app_nil_r; reflexivity|]. cbn [map app pieces]. rewrite IH, <- app_assoc. reflexivity. }
  unfold header_parts. generalize (tree_construct (begin_call n)) (tree_construct end_call). intros x y. cbn [pieces]. cbn [run app].
  assert (Ne : in_place (pieces true [] light_parts) <> []) by (rewrite light_pieces; discriminate). revert Ne. generalize (in_place (pieces true [] light_parts)). intros l Ne. destruct l as [|z l]; [contradiction|].
  assert (R : run false (10 :: b ++ [10]) = [NPlain (raw (10 :: b ++ [10])) (IndStr []) false]) by (unfold run; do 2 f_equal; rewrite app_comm_cons, fold_left_app; reflexivity).
  cbn [no_pieces andb]. rewrite (K [] (10 :: b ++ [10]) y). cbn [app]. rewrite R. reflexivity.
Qed.
Lemma header_page ec n N b fb : c_python (e_parse ec) = false -> c_skip (e_parse ec) = SkipNone -> e_trim ec = true -> TextSpec.offers ec (lit "upper") ->
  identifier n -> ~ In 45 n -> ~ In n (names light_defs) -> ~ In n special_forms -> (forall imported, e_builtin ec imported n = None) -> Forall2 TextSpec.to_capital n N ->
  page ec [] (IndStr []) fb (pieces true [] (header_parts n b)) (header N b) fb.
Proof.
  intros Py Sk T Ou Hn Hd Nn Ns Nb HN. rewrite header_pieces. apply light_page; [exact T|].
  assert (EN : N = upper n).
  { clear -HN. induction HN as [|c d n N H _ IH]; [reflexivity|]. cbn [upper map]. f_equal; [|exact IH]. unfold TextSpec.to_capital, TextSpec.small in H. unfold upper_char. destruct (_ && _) eqn:E; lia. }
  assert (Sn : solid N) by (rewrite EN; apply upper_solid, Hn).
  assert (Eh : header N b = [10] ++ (if e_trim ec then [] else [10]) ++ filled N header_begin ++ (10 :: b ++ [10]) ++ filled N header_end ++ []).
  { rewrite T, app_nil_r. unfold header. generalize (filled N header_begin) (filled N header_end). intros u w. cbn [app]. rewrite <- app_assoc. reflexivity. }
  rewrite Eh. cbn [tree_construct begin_call end_call ExprSpec.tree v tree_region tree_name map fst snd spliced].
  apply (use_begin ec [] []) with (val := NAtom (raw n)) (n := n); [reflexivity|intros []|exact Py|exact Sk|exact Ou| |exact Hn|exact Hd|rewrite app_nil_r; exact Nn|exact Ns|exact Nb| |apply (FormatSpec.IN_atom (raw n))|exact HN|].
  - intros H. cbn [app names light_defs map fst In] in H. repeat (destruct H as [H|H]; [discriminate H|]). exact H.
  - apply VA_atom; [cbn [app s_txt raw]; rewrite app_nil_r; exact Nn|exact Nb|exact Ns|exact Hd].
  - apply (PG_run ec _ (IndStr []) fb (raw (10 :: b ++ [10])) (IndStr []) false _ (10 :: b ++ [10])); [unfold front_cut; rewrite andb_false_r; reflexivity|]. cbn [indent_then].
    apply (use_end ec [(lit "h-name", EValue (NRaw N))] []); [reflexivity|intros [H|[]]; discriminate H|exact Py|exact Sk|apply at_front|exact Sn|reflexivity|apply PG_end].
Qed.
Lemma filled_chars (P : char -> Prop) n t : Forall P n -> Forall P t -> Forall P (filled n t).
Proof.
  intros Hn Ht. induction Ht as [|c t Hc _ IH]; [constructor|]. unfold filled. cbn [flat_map]. fold (filled n t). apply Forall_app. split; [|exact IH]. destruct (c =? 64); [exact Hn|constructor; [exact Hc|constructor]].
Qed.
(** ** A header with settled declarations is settled *)
Lemma unlines_more a b : unlines (a ++ b) = unlines a ++ unlines b.
Proof. unfold unlines. rewrite map_app. apply concat_app. Qed.
Lemma never_more ls : forall r, never_twice (eq []) ls -> never_twice (eq []) r -> ls <> [] -> ~ (last ls [1] = [] /\ hd [1] r = []) -> never_twice (eq []) (ls ++ r).
Proof.
  induction ls as [|a ls IH]; intros r H1 H2 Hne H3; [contradiction|]. destruct ls as [|b ls].
  - cbn [app]. destruct r as [|c r]; [exact Logic.I|]. split; [|exact H2]. intros [A B]. apply H3. cbn [last hd]. split; symmetry; assumption.
  - destruct H1 as [H1 H1']. cbn [app]. split; [exact H1|]. apply IH; [exact H1'|exact H2|discriminate|exact H3].
Qed.
Definition settled_line (l : text) : bool := forallb (fun c => negb (py_isbreak c)) l && match rev l with [] => true | c :: _ => negb (py_isspace c) && negb (c =? 64) end.
Fixpoint never_twice_b (ls : list text) : bool :=
  match ls with [] :: ([] :: _) => false | _ :: r => never_twice_b r | [] => true end.
Section Settled.
Variable n : text.
Hypothesis Hn : no_break n.
Hypothesis Hne : n <> [].
Lemma filled_both a b : filled n (a ++ b) = filled n a ++ filled n b.
Proof. unfold filled. apply flat_map_app. Qed.
Lemma filled_none l : filled n l = [] <-> l = [].
Proof. split; [|intros ->; reflexivity]. intros E. destruct l as [|c l]; [reflexivity|]. unfold filled in E. cbn [flat_map] in E. destruct (c =? 64); [destruct n; [contradiction|discriminate E]|discriminate E]. Qed.
Lemma filled_tidy l : settled_line l = true -> tidy (filled n l).
Proof.
  unfold settled_line. intros H. apply andb_prop in H as [H1 H2]. split.
  - apply filled_chars; [exact Hn|]. apply Forall_forall. intros c Hc. rewrite forallb_forall in H1. specialize (H1 c Hc). destruct (py_isbreak c); [discriminate H1|reflexivity].
  - destruct (rev l) as [|c r] eqn:E; [left; apply (f_equal (@rev N)) in E; rewrite rev_involutive in E; subst l; reflexivity|right].
    apply (f_equal (@rev N)) in E. rewrite rev_involutive in E. cbn [rev] in E. subst l. apply andb_prop in H2 as [A B]. exists (filled n (rev r)), c. split; [|destruct (py_isspace c); [discriminate A|reflexivity]].
    rewrite filled_both. f_equal. unfold filled. cbn [flat_map]. destruct (c =? 64); [discriminate B|reflexivity].
Qed.
Lemma filled_unlines ls : unlines (map (filled n) ls) = filled n (unlines ls).
Proof. induction ls as [|l ls IH]; [reflexivity|]. change (unlines (map (filled n) (l :: ls))) with ((filled n l ++ [10]) ++ unlines (map (filled n) ls)). change (unlines (l :: ls)) with ((l ++ [10]) ++ unlines ls). rewrite IH, !filled_both. reflexivity. Qed.
Lemma filled_never ls : never_twice_b ls = true -> never_twice (eq []) (map (filled n) ls).
Proof.
  induction ls as [|a ls IH]; intros H; [exact Logic.I|]. destruct ls as [|b ls]; [exact Logic.I|]. change (~ ([] = filled n a /\ [] = filled n b) /\ never_twice (eq []) (map (filled n) (b :: ls))). split.
  - intros [E1 E2]. symmetry in E1, E2. apply (proj1 (filled_none a)) in E1. apply (proj1 (filled_none b)) in E2. subst a b. discriminate H.
  - apply IH. destruct a as [|x a]; [destruct b; [discriminate H|exact H]|exact H].
Qed.
Definition guard_front : list text := Eval vm_compute in splitlines (10 :: header_begin ++ [10]).
Definition guard_back : list text := Eval vm_compute in splitlines header_end.
Lemma settled_header b : settled b -> reduce_emptiness true (header n b) = header n b.
Proof.
  intros (ls & Eb & Ht & Hv & Hh & Hl).
  assert (Ef : filled n (unlines guard_front) = 10 :: filled n header_begin ++ [10]) by (replace (unlines guard_front) with (10 :: header_begin ++ [10]) by (vm_compute; reflexivity); change (10 :: header_begin ++ [10]) with ([10] ++ header_begin ++ [10]); rewrite !filled_both; reflexivity).
  assert (Ek : filled n (unlines guard_back) = filled n header_end) by (replace (unlines guard_back) with header_end by (vm_compute; reflexivity); reflexivity).
  assert (Eh : header n b = unlines (map (filled n) guard_front ++ ls ++ map (filled n) guard_back)).
  { rewrite !unlines_more, !filled_unlines, Ef, Ek, <- Eb. unfold header. generalize (filled n header_begin) (filled n header_end). intros u v. cbn [app]. rewrite <- !app_assoc. reflexivity. }
  assert (Lne : ls <> []) by (intros ->; apply Hh; reflexivity).
  rewrite Eh. apply reduce_tidy.
  - destruct ls; [contradiction|]. discriminate.
  - apply Forall_app. split; [|apply Forall_app; split; [exact Ht|]]; apply Forall_map, Forall_forall; intros l Hi; apply filled_tidy.
    + assert (F : forallb settled_line guard_front = true) by (vm_compute; reflexivity). rewrite forallb_forall in F. exact (F l Hi).
    + assert (F : forallb settled_line guard_back = true) by (vm_compute; reflexivity). rewrite forallb_forall in F. exact (F l Hi).
  - apply never_more; [apply filled_never; vm_compute; reflexivity| |discriminate|].
    + apply never_more; [exact Hv|apply filled_never; vm_compute; reflexivity|exact Lne|]. intros [A _]. apply Hl. clear -A Lne. revert A. generalize dependent ls. intros ls Lne A. destruct (exists_last Lne) as (r & x & ->). rewrite !last_last in *. exact A.
    + intros [_ A]. apply Hh. destruct ls; [contradiction|]. exact A.
Qed.
End Settled.
Lemma header_run w top reduce dirs passage d n N b input output uniq key all p :
  let w' := with_library top input w in let cfg := library_config true reduce dirs passage in
  language_of output false -> source_named input key -> searched dirs (w_lib w) input all ->
  library_file (w_read w) all (lit "h-light.yu") p (lit h_light_yu) -> key <> lit "<null>" -> key <> lit "h-light.yu" ->
  identifier n -> ~ In 45 n -> ~ In n (names light_defs) -> ~ In n special_forms -> (forall imported, e_builtin (run_ectx w' cfg input output (Proc [] uniq)) imported n = None) ->
  Forall2 TextSpec.to_capital n N -> Forall declaration_char b -> (reduce = true -> settled b) ->
  exists n0, forall k, (n0 <= k)%nat -> pp w' cfg (S (S d)) k (header_source n b) input output (Proc [] uniq) = Ok (PP true (header N b) None None false 0).
Proof.
  intros w' cfg Hl Hs Hd Hf Hk Hk2 Hn H45 Nn Ns Nb HN Hb Hr.
  pose proof (header_sheet all (w_read w) [key; lit "<null>"] n b p Hn Hb Hf) as Sh.
  assert (Fc : Forall (fun c => c < 127) (header_source n b)).
  { unfold header_source. assert (D : forall t, forallb (fun c => c <? 127) t = true -> Forall (fun c => c < 127) t) by (intros t Ht; apply Forall_forall; intros c Hc; rewrite forallb_forall in Ht; specialize (Ht c Hc); lia).
    apply Forall_app. split; [apply D; reflexivity|]. apply Forall_app. split; [|apply Forall_app; split; [apply D; reflexivity|constructor; [lia|apply Forall_app; split; [|apply D; reflexivity]]]].
    - eapply Forall_impl; [|exact (identifier_chars n Hn)]. intros c H. unfold name_char, letter, decimal_digit in H. lia.
    - eapply Forall_impl; [|exact Hb]. intros c H. unfold declaration_char in H. lia. }
  destruct (read_sheet_run w' cfg 1 (S d) (header_source n b) (header_source n b) (header_parts n b) (lit "h-light.yu" :: [key; lit "<null>"]) (header N b) (Feedback None false) input output (Proc [] uniq) false SkipNone key all) as [n0 H0]; try assumption.
  - constructor.
  - apply unified_id. intros H. (* no CR *)
    apply in_app_iff in H as [H|H]; [vm_compute in H; intuition discriminate|]. apply in_app_iff in H as [H|H].
    + pose proof (identifier_chars n Hn) as Hc. rewrite Forall_forall in Hc. specialize (Hc _ H). unfold name_char, letter, decimal_digit in Hc. lia.
    + apply in_app_iff in H as [H|H]; [vm_compute in H; intuition discriminate|]. destruct H as [H|H]; [discriminate H|]. apply in_app_iff in H as [H|H]; [|vm_compute in H; intuition discriminate].
      rewrite Forall_forall in Hb. specialize (Hb _ H). unfold declaration_char in Hb. lia.
  - apply Sh. intros [H|[H|[]]]; [congruence|discriminate H].
  - discriminate.
  - reflexivity.
  - lia.
  - assert (Pf : c_python (e_parse (run_ectx w' cfg input output (Proc [] uniq))) = false) by (exact (ReadFacts.language_is output false Hl)).
    apply header_page; [exact Pf| |reflexivity| |assumption..].
    { apply (ConfFacts.comments w' cfg input output SkipNone). constructor. }
    exists (Ctx false SkipNone [] [] (w_read w) (w_unq w) (w_pyimport w) (w_evalimport w) (w_str w)), input. intros imported. reflexivity.
  - exists n0. intros k Hk0. rewrite (H0 k Hk0). cbn [f_output f_repeat cfg library_config k_reduce]. do 2 f_equal.
    assert (Er : reduce_emptiness reduce (header N b) = header N b).
    { destruct reduce; [|reflexivity]. apply settled_header; [|intros ->; inversion HN; subst; exact Hn|apply Hr; reflexivity].
      assert (EN : N = upper n) by (clear -HN; induction HN as [|c e n N H _ IH]; [reflexivity|]; cbn [upper map]; f_equal; [|exact IH]; unfold TextSpec.to_capital, TextSpec.small in H; unfold upper_char; destruct (_ && _) eqn:E; lia).
      rewrite EN. exact (proj1 (upper_solid n Hn)). }
    rewrite Er, steady_map.
    assert (Fh : Forall (fun c => c < 127) (header N b)).
    { assert (D : forall t, forallb (fun c => c <? 127) t = true -> Forall (fun c => c < 127) t) by (intros t Ht; apply Forall_forall; intros c Hc; rewrite forallb_forall in Ht; specialize (Ht c Hc); lia).
      assert (FN : Forall (fun c => c < 127) N).
      { pose proof (identifier_chars n Hn) as Hc. clear -HN Hc. induction HN as [|c e n N H _ IH]; [constructor|]. inversion Hc as [|? ? H1 H2]; subst. constructor; [|apply IH, H2].
        unfold TextSpec.to_capital, name_char, letter, decimal_digit in *. lia. }
      unfold header. constructor; [lia|]. apply Forall_app. split; [apply filled_chars; [exact FN|apply D; vm_compute; reflexivity]|]. constructor; [lia|]. apply Forall_app. split.
      - eapply Forall_impl; [|exact Hb]. intros c H. unfold declaration_char in H. lia.
      - constructor; [lia|]. apply filled_chars; [exact FN|apply D; vm_compute; reflexivity]. }
    revert Fh. generalize (header N b). intros u Fh. induction Fh as [|c u Hc _ IH]; [reflexivity|]. cbn [map]. rewrite IH. replace (c =? 254) with false by lia. replace (c =? 255) with false by lia. reflexivity.
Qed.
