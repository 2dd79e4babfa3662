(** * What the functions and macros of the standard library do *)
From Coq Require Import List NArith ZArith Bool String Lia ZifyBool ZifyNat ZifyN.
From Verif Require FormatSpec FormatFacts FormatCases TextSpec TextFacts TextCases.
From Verif Require Import PyStr PyStrFacts Ast Lex LexSpec ProtectSpec QuoteSpec LexFacts LexFacts2 LexCases Parse ParseSpec ParseFacts3 PpFacts HeaderFacts Final Shell ShellSpec Eval Builtin Builtin2 EnvSpec EvalSpec EvalFacts TrimSpec TrimCases CodecFacts Pp PpSpec PpCases ProtectCases ExprSpec ExprShow DocSpec ExprCases CoreSpec CoreFacts CoreCases RunSpec RunFacts RunFacts2 RunCases MacroCases SheetSpec SheetFacts SheetCases Eg StdSpec StdFacts StdRun.
Import ListNotations.
Open Scope list_scope.
Open Scope N_scope.

Definition lib_names : list text := map lit ["INT_MIN"; "INT_MAX"; "def-fn-argv"; "BB"; "BIN"; "skip-if-not"; "skip-if"; "def-if"; "undef"; "def"; "define"; "__EOL__"; "foo"; "do"; "unfold"; "unless"; "if"; "dict"]%string.
Lemma lib_names_eq top : names (library_defs top) = lib_names.
Proof. reflexivity. Qed.
Lemma str_bare x : str_of (bare x) = str_of x.
Proof. destruct x; reflexivity. Qed.
Lemma bare_raw x t : bare x = NRaw t -> x = NRaw t.
Proof. destruct x; intros E; try discriminate E. exact E. Qed.
Lemma bare_raws l ts : map bare l = map NRaw ts -> l = map NRaw ts.
Proof. revert ts. induction l as [|x l IH]; intros [|t ts] E; try discriminate E; [reflexivity|]. cbn [map] in E. injection E as E1 E2. cbn [map]. rewrite (bare_raw _ _ E1), (IH _ E2). reflexivity. Qed.
Lemma bare_int x z : bare x = NInt z -> x = NInt z.
Proof. destruct x; intros E; try discriminate E. exact E. Qed.
Lemma raw_constant t : constant_value (NRaw t).
Proof. split; [constructor|reflexivity]. Qed.

Section Uses.
Variables (ec : ectx) (top : Z) (later : defs).
Notation g := (later ++ library_defs top).
Lemma shadow n : ~ In n (names later) -> mem n (names later) = false.
Proof.
  induction (names later) as [|m l IH]; [reflexivity|]. intros H. cbn [mem]. destruct (teqb_spec n m) as [E|_]; [exfalso; apply H; left; symmetry; exact E|]. apply IH. intros Hi. apply H. right. exact Hi.
Qed.

(** ** if, unless *)
Lemma choice_of r a f x body (fe : entry) c args vc vs vx vy w u before mid :
  fe = EFunction [lit "cond"; lit "then"; lit "else"] [(lit "then", NRaw []); (lit "else", NRaw [])] body ->
  library_defs top = mid ++ (f, fe) :: before -> ~ In f (names later) -> ~ In f (names mid) -> s_txt a = f ->
  body = ap (NCond (vr "cond") (vr x) (vr (if teqb (lit x) (lit "then") then "else" else "then"))) [] -> x = "then"%string \/ x = "else"%string ->
  value ec (InText g) c vc -> all_values ec (InText g) args vs -> (vs = [] /\ vx = NRaw [] /\ vy = NRaw [] \/ vs = [vx] /\ vy = NRaw [] \/ vs = [vx; vy]) ->
  selects vc (if teqb (lit x) (lit "then") then vx else vy) (if teqb (lit x) (lit "then") then vy else vx) w -> value_text w u ->
  value ec (InText g) (NApply (NVar r a) (c :: args) [] None 0) w.
Proof.
  intros -> El Nl Nm Ea -> Hx Vc Va Hvs Hs Hu.
  eapply VA_call with (later := later ++ mid) (before := before) (f := f) (vs := vc :: vs) (nm := []) (bs := [(lit "cond", vc); (lit "then", vx); (lit "else", vy)]).
  - rewrite El, <- app_assoc. reflexivity.
  - unfold names in *. rewrite map_app, in_app_iff. tauto.
  - exact Ea.
  - apply AV_more; assumption.
  - apply NV_end.
  - constructor.
  - intros n [].
  - apply BI_positional; [intros []|discriminate|]. assert (Dt : gives [(lit "then", NRaw []); (lit "else", NRaw [])] (lit "then") (NRaw [])) by apply at_front.
    assert (De : gives [(lit "then", NRaw []); (lit "else", NRaw [])] (lit "else") (NRaw [])) by (apply at_next; [discriminate|apply at_front]).
    destruct Hvs as [(-> & -> & ->)|[(-> & ->)| ->]].
    + apply BI_default; [intros []|exact Dt|]. apply BI_default; [intros []|exact De|]. apply BI_end.
    + apply BI_positional; [intros []|discriminate|]. apply BI_default; [intros []|exact De|]. apply BI_end.
    + apply BI_positional; [intros []|discriminate|]. apply BI_positional; [intros []|discriminate|]. apply BI_end.
  - assert (V1 : forall B, value ec (InBody B ([(lit "cond", vc); (lit "then", vx); (lit "else", vy)] ++ values_in ([lit "cond"; lit "then"; lit "else"] ++ f :: names (later ++ mid)) before)) (vr "then") vx).
    { intros B. apply VA_name. cbn [values_at app s_txt raw]. apply at_next; [discriminate|]. apply at_front. }
    assert (V2 : forall B, value ec (InBody B ([(lit "cond", vc); (lit "then", vx); (lit "else", vy)] ++ values_in ([lit "cond"; lit "then"; lit "else"] ++ f :: names (later ++ mid)) before)) (vr "else") vy).
    { intros B. apply VA_name. cbn [values_at app s_txt raw]. apply at_next; [discriminate|]. apply at_next; [discriminate|]. apply at_front. }
    unfold ap. apply VA_show with (u := u); [|exact Hu]. destruct Hx as [-> | ->].
    + eapply VA_cond; [apply VA_name; cbn [values_at app s_txt raw]; apply at_front|apply V1|apply V2|exact Hs].
    + eapply VA_cond; [apply VA_name; cbn [values_at app s_txt raw]; apply at_front|apply V2|apply V1|exact Hs].
Qed.
(** the first value of a call and the second, or nothing in the place of those that are not given *)
Definition legs (vs : list node) (v1 v2 : node) : Prop := vs = [] /\ v1 = NRaw [] /\ v2 = NRaw [] \/ vs = [v1] /\ v2 = NRaw [] \/ vs = [v1; v2].
Lemma use_if r a c args vc vs v1 v2 w u : s_txt a = lit "if" -> ~ In (lit "if") (names later) ->
  value ec (InText g) c vc -> all_values ec (InText g) args vs -> legs vs v1 v2 -> selects vc v1 v2 w -> value_text w u ->
  value ec (InText g) (NApply (NVar r a) (c :: args) [] None 0) w.
Proof.
  intros Ea Nl Vc Va Hl Hs Hu. eapply (choice_of r a (lit "if") "then") with (before := skipn 17 (library_defs top)) (mid := firstn 16 (library_defs top)) (fe := if_entry); try eassumption; try reflexivity.
  - cbn [firstn library_defs names map fst In]. intros H. repeat (destruct H as [H|H]; [discriminate H|]). exact H.
  - left. reflexivity.
Qed.
Lemma use_unless r a c args vc vs v1 v2 w u : s_txt a = lit "unless" -> ~ In (lit "unless") (names later) ->
  value ec (InText g) c vc -> all_values ec (InText g) args vs -> legs vs v1 v2 -> selects vc v2 v1 w -> value_text w u ->
  value ec (InText g) (NApply (NVar r a) (c :: args) [] None 0) w.
Proof.
  intros Ea Nl Vc Va Hl Hs Hu. eapply (choice_of r a (lit "unless") "else") with (before := skipn 16 (library_defs top)) (mid := firstn 15 (library_defs top)) (fe := unless_entry); try eassumption; try reflexivity.
  - cbn [firstn library_defs names map fst In]. intros H. repeat (destruct H as [H|H]; [discriminate H|]). exact H.
  - right. reflexivity.
Qed.
(** ** INT_MAX, INT_MIN *)
Lemma gives_entry hidden l n v r : ~ In n (names l) -> mem n hidden = false -> gives (values_in hidden (l ++ (n, EValue v) :: r)) n v.
Proof.
  revert hidden. induction l as [|[m y] l IH]; intros hidden Hn Hh.
  - cbn [app values_in]. rewrite Hh. apply at_front.
  - assert (Nm : n <> m) by (intros ->; apply Hn; left; reflexivity).
    assert (IH' : gives (values_in (m :: hidden) (l ++ (n, EValue v) :: r)) n v).
    { apply IH; [intros Hi; apply Hn; right; exact Hi|]. cbn [mem]. rewrite Hh. destruct (teqb_spec n m); [contradiction|reflexivity]. }
    cbn [app values_in]. destruct y; try exact IH'. destruct (mem m hidden); [exact IH'|]. apply at_next; assumption.
Qed.
Lemma use_max r a : s_txt a = lit "INT_MAX" -> ~ In (lit "INT_MAX") (names later) -> value ec (InText g) (NVar r a) (NInt top).
Proof.
  intros Ea Nl. apply VA_name. rewrite Ea. cbn [values_at]. replace g with ((later ++ firstn 1 (library_defs top)) ++ (lit "INT_MAX", EValue (NInt top)) :: skipn 2 (library_defs top)) by (rewrite <- app_assoc; reflexivity).
  apply gives_entry; [|reflexivity]. unfold names. rewrite map_app, in_app_iff. intros [H|[H|[]]]; [exact (Nl H)|discriminate H].
Qed.
Lemma use_min r a : s_txt a = lit "INT_MIN" -> ~ In (lit "INT_MIN") (names later) -> value ec (InText g) (NVar r a) (NInt (- top - 1)).
Proof. intros Ea Nl. apply VA_name. rewrite Ea. cbn [values_at]. apply (gives_entry [] later (lit "INT_MIN")); [exact Nl|reflexivity]. Qed.

(** ** BIN *)
Lemma offered_gives f fn vs w : TextSpec.offers ec f -> (forall cx input, dict_get f (core ++ more cx input) = Some (fn cx)) ->
  (forall cx vs' st, map bare vs' = vs -> fn cx vs' st = Ok (w, st)) -> builtin_result w = w -> data w -> bare w = w -> builtin_gives ec f vs w.
Proof.
  intros (cx & input & Ho) Hf Hg Hr Hd Hb vs' Hv. exists w. split; [|split; assumption]. exists (fn cx), w. split; [|split; [|symmetry; exact Hr]].
  - intros imported. rewrite Ho, Hf. reflexivity.
  - intros st. apply Hg, Hv.
Qed.
Lemma atoi_gives x ds : TextSpec.offers ec (lit "atoi") -> str_of x = Some ds -> ds <> [] -> Forall (fun c => c = 48 \/ c = 49) ds ->
  builtin_gives ec (lit "atoi") [x; NInt 2] (NInt (LexSpec.value 2 ds)).
Proof.
  intros Ho Hx Hn Hd. apply (offered_gives _ (fun _ => b_atoi)); try reflexivity; [exact Ho| |constructor].
  intros cx [|y [|z [|? ?]]] st E; try discriminate E. injection E as E1 E2. apply bare_int in E2. subst z. unfold b_atoi. cbn [int_of]. rewrite <- (str_bare y), E1, Hx.
  change ((2 <=? 2) && (2 <=? 16))%Z with true. cbn [andb]. pose proof (TextFacts.int_base_digits 2 [] ds) as Hi. cbn [app] in Hi. rewrite Hi; [reflexivity|lia|left; reflexivity|exact Hn|].
  apply Forall_forall. intros c Hc. rewrite Forall_forall in Hd. destruct (Hd c Hc) as [-> | ->]; (split; [left; split; lia|reflexivity]).
Qed.
Lemma free_name n ps : mem n ps = false -> mem n lib_names = false -> ~ In n (names later) -> ~ In n (ps ++ names g).
Proof.
  intros H1 H2 H3 H. assert (N : forall l, mem n l = false -> ~ In n l).
  { induction l as [|m l IH]; [intros _ []|]. cbn [mem]. destruct (teqb_spec n m) as [->|Hm]; [discriminate|]. intros Hl [E|E]; [congruence|exact (IH Hl E)]. }
  unfold names in H. rewrite map_app in H. apply in_app_or in H as [H|H]; [exact (N _ H1 H)|]. apply in_app_or in H as [H|H]; [exact (H3 H)|]. exact (N _ H2 H).
Qed.
Lemma use_bin r a x v ds : s_txt a = lit "BIN" -> ~ In (lit "BIN") (names later) -> ~ In (lit "atoi") (names later) -> TextSpec.offers ec (lit "atoi") ->
  value ec (InText g) x v -> str_of v = Some ds -> ds <> [] -> Forall (fun c => c = 48 \/ c = 49) ds ->
  value ec (InText g) (NApply (NVar r a) [x] [] None 0) (NInt (LexSpec.value 2 ds)).
Proof.
  intros Ea Nl Na Ho Hx Hv Hn Hd.
  eapply VA_call with (later := later ++ firstn 4 (library_defs top)) (before := skipn 5 (library_defs top)) (f := lit "BIN") (vs := [v]) (nm := []) (bs := [(lit "b", v)]).
  - rewrite <- app_assoc. reflexivity.
  - unfold names. rewrite map_app, in_app_iff. intros [H|H]; [exact (Nl H)|]. cbn [firstn library_defs map fst In] in H. repeat (destruct H as [H|H]; [discriminate H|]). exact H.
  - exact Ea.
  - apply AV_more; [exact Hx|apply AV_end].
  - apply NV_end.
  - constructor.
  - intros n [].
  - apply BI_positional; [intros []|discriminate|apply BI_end].
  - unfold ap, vr. eapply VA_builtin with (vs := [v; NInt 2]).
    + apply AV_more; [apply VA_name; cbn [values_at app s_txt raw]; apply at_front|]. apply AV_more; [apply VA_constant, int_constant|apply AV_end].
    + apply free_name; [reflexivity|reflexivity|exact Na].
    + apply atoi_gives; assumption.
Qed.

(** ** define *)
Lemma unq_gives t u : TextSpec.offers ec (lit "unq") -> unq_simple t = Some u -> builtin_gives ec (lit "unq") [NStr (raw t)] (NRaw u).
Proof.
  intros Ho Hu. apply (offered_gives _ b_unq); try reflexivity; [exact Ho| |constructor].
  intros cx [|y [|? ?]] st E; try discriminate E. injection E as E. unfold b_unq, arg1. assert (Es : str_of y = Some t) by (rewrite <- str_bare, E; reflexivity).
  assert (Eu : unq cx t = u) by (unfold unq; rewrite Hu; reflexivity). destruct y; try discriminate E; cbn [str_of] in Es |- *; injection Es as ->; rewrite Eu; reflexivity.
Qed.
Lemma split_gives t p l : TextSpec.offers ec (lit "split") -> p <> [] -> TextSpec.parts p t l -> builtin_gives ec (lit "split") [NRaw t; NRaw p] (NList (map NRaw l)).
Proof.
  intros Ho Hp Hl. apply (offered_gives _ (fun _ => b_split)); [exact Ho|reflexivity| |reflexivity| |].
  - intros cx [|y [|z [|? ?]]] st E; try discriminate E. injection E as E1 E2. apply bare_raw in E1. apply bare_raw in E2. subst y z. unfold b_split, on_text. cbn [str_of].
    destruct (TextFacts.parts_split p t l Hp Hl) as (E & _). destruct p; [contradiction|]. rewrite E. reflexivity.
  - constructor. apply Forall_forall. intros x Hx. apply in_map_iff in Hx as (u & <- & _). constructor.
  - cbn [bare]. rewrite map_map. reflexivity.
Qed.
Lemma join_gives l p t : TextSpec.offers ec (lit "join") -> TextSpec.joined p l t -> builtin_gives ec (lit "join") [NList (map NRaw l); NRaw p] (NRaw t).
Proof.
  intros Ho Hj. apply (offered_gives _ (fun _ => b_join)); try reflexivity; [exact Ho| |constructor].
  intros cx [|y [|z [|? ?]]] st E; try discriminate E. injection E as E1 E2. apply bare_raw in E2. subst z. destruct y; try discriminate E1. cbn [bare] in E1. injection E1 as E1. apply bare_raws in E1. subst l0.
  unfold b_join, on_text. cbn [str_of py_iter list_of]. rewrite (TextCases.texts_of_list _ l). 2: { clear. induction l; constructor; [reflexivity|assumption]. }
  rewrite (TextFacts.joined_det p l t (join p l) Hj (TextFacts.joined_join p l)). reflexivity.
Qed.
Lemma placed_nothing t : t = nl \/ t = lit "#define" \/ t = lit "#undef" -> placed ec [] t t.
Proof.
  intros Ht. unfold placed. destruct (e_trim ec) eqn:T; [|reflexivity].
  assert (P : placed ec [] t t).
  { destruct Ht as [-> |[-> | ->]]; [apply (placed_lines' ec [] [[]; []])|apply (placed_lines' ec [] [lit "#define"])|apply (placed_lines' ec [] [lit "#undef"])]; try reflexivity; try discriminate; exact T. }
  unfold placed in P. rewrite T in P. exact P.
Qed.
Lemma use_define r a x y v1 v2 t1 t2 u1 u2 l out : s_txt a = lit "define" ->
  Forall (fun n => ~ In n (names later)) [lit "define"; lit "__EOL__"; lit "join"; lit "split"; lit "unq"] ->
  TextSpec.offers ec (lit "join") -> TextSpec.offers ec (lit "split") -> TextSpec.offers ec (lit "unq") ->
  value ec (InText g) x v1 -> value ec (InText g) y v2 -> value_text v1 t1 -> value_text v2 t2 -> placed ec [] t1 u1 -> placed ec [] t2 u2 ->
  TextSpec.parts nl (lit "#define " ++ u1 ++ lit " " ++ u2) l -> TextSpec.joined (lit " \" ++ nl) l out ->
  value ec (InText g) (NApply (NVar r a) [x; y] [] None 0) (NRaw out).
Proof.
  intros Ea Nn Oj Os Ou Hx Hy T1 T2 P1 P2 Hl Ho. inversion Nn as [|n0 l0 Nd Nn1]; subst. inversion Nn1 as [|n0 l0 Ne Nn2]; subst. inversion Nn2 as [|n0 l0 Nj Nn3]; subst. inversion Nn3 as [|n0 l0 Ns Nn4]; subst. inversion Nn4 as [|n0 l0 Nu Nn5]; subst. clear Nn Nn1 Nn2 Nn3 Nn4 Nn5.
  eapply VA_call with (later := later ++ firstn 10 (library_defs top)) (before := skipn 11 (library_defs top)) (f := lit "define") (vs := [v1; v2]) (nm := []) (bs := [(lit "sig", v1); (lit "body", v2)]).
  - rewrite <- app_assoc. reflexivity.
  - unfold names. rewrite map_app, in_app_iff. intros [H|H]; [exact (Nd H)|]. cbn [firstn library_defs map fst In] in H. repeat (destruct H as [H|H]; [discriminate H|]). exact H.
  - exact Ea.
  - apply AV_more; [exact Hx|]. apply AV_more; [exact Hy|apply AV_end].
  - apply NV_end.
  - constructor.
  - intros n [].
  - apply BI_positional; [intros []|discriminate|]. apply BI_positional; [intros []|discriminate|apply BI_end].
  - set (B := [lit "sig"; lit "body"] ++ names g). set (bs := [(lit "sig", v1); (lit "body", v2)] ++ values_in ([lit "sig"; lit "body"] ++ lit "define" :: names (later ++ firstn 10 (library_defs top))) (skipn 11 (library_defs top))).
    assert (Ve : gives bs (lit "__EOL__") (NRaw nl)).
    { unfold bs. apply at_next; [discriminate|]. apply at_next; [discriminate|]. apply (gives_entry _ [] (lit "__EOL__")); [intros []|].
      cbn [app mem]. change (teqb (lit "__EOL__") (lit "sig")) with false. change (teqb (lit "__EOL__") (lit "body")) with false. change (teqb (lit "__EOL__") (lit "define")) with false. cbn [orb].
      unfold names. rewrite map_app. fold (names later). assert (M : forall l1 l2 n, mem n (l1 ++ l2) = mem n l1 || mem n l2) by (induction l1 as [|m l1 IH]; intros l2 n; [reflexivity|cbn [app mem]; rewrite IH; apply orb_assoc]).
      rewrite M, (shadow _ Ne). reflexivity. }
    assert (Vs : value ec (InBody B bs) (vr "sig") v1) by (apply VA_name; cbn [values_at s_txt raw]; apply at_front).
    assert (Vb : value ec (InBody B bs) (vr "body") v2) by (apply VA_name; cbn [values_at s_txt raw]; apply at_next; [discriminate|apply at_front]).
    assert (Vn : value ec (InBody B bs) (vr "__EOL__") (NRaw nl)) by (apply VA_name; exact Ve).
    unfold ap at 1, vr at 1. eapply VA_builtin with (vs := [NList (map NRaw l); NRaw (lit " \" ++ nl)]); [|apply free_name; [reflexivity|reflexivity|exact Nj]|apply join_gives; assumption].
    apply AV_more; [|apply AV_more; [|apply AV_end]].
    + unfold ap at 1, vr at 1. eapply VA_builtin with (vs := [NRaw (lit "#define " ++ u1 ++ lit " " ++ u2); NRaw nl]); [|apply free_name; [reflexivity|reflexivity|exact Ns]|apply split_gives; [exact Os|discriminate|exact Hl]].
      apply AV_more; [|apply AV_more; [exact Vn|apply AV_end]].
      apply VA_text with (vs := [NRaw (lit "#define"); sp (lit " "); v1; sp (lit " "); v2]).
      * repeat (apply Forall_cons; [exact Logic.I|]). apply Forall_nil.
      * assert (Sc : constant_value (sp (lit " "))) by (split; [constructor|reflexivity]).
        apply AV_more; [|apply AV_more; [apply VA_constant, Sc|apply AV_more; [apply VA_show with (u := t1); assumption|apply AV_more; [apply VA_constant, Sc|apply AV_more; [apply VA_show with (u := t2); assumption|apply AV_end]]]]].
        unfold ap, vr. eapply VA_builtin with (vs := [NStr (raw (34 :: lit "#define" ++ [34]))]); [|apply free_name; [reflexivity|reflexivity|exact Nu]|apply unq_gives; [exact Ou|reflexivity]].
        apply AV_more; [apply VA_constant; split; [constructor|reflexivity]|apply AV_end].
      * change (lit "#define " ++ u1 ++ lit " " ++ u2) with (lit "#define" ++ (lit " " ++ (u1 ++ (lit " " ++ u2)))). rewrite <- (app_nil_r u2).
        assert (Shp : shown (sp (lit " ")) (lit " ")) by apply SH_plain.
        apply WR_applied with (u := lit "#define"); [exact Logic.I|apply SH_value, VT_raw|apply placed_nothing; auto|].
        apply WR_other; [intros []|exact Shp|]. apply WR_applied with (u := t1); [exact Logic.I|apply SH_value, T1|exact P1|].
        apply WR_other; [intros []|exact Shp|]. apply WR_applied with (u := t2); [exact Logic.I|apply SH_value, T2|exact P2|]. apply WR_end.
    + apply VA_text with (vs := [NPlain (raw (lit " \")) IndFalse false; NRaw nl]).
      * repeat (apply Forall_cons; [exact Logic.I|]). apply Forall_nil.
      * apply AV_more; [apply VA_constant; split; [constructor|reflexivity]|]. apply AV_more; [apply VA_show with (u := nl); [exact Vn|constructor]|apply AV_end].
      * rewrite <- (app_nil_r nl). apply WR_other; [intros []|apply SH_plain|]. apply WR_applied with (u := nl); [exact Logic.I|apply SH_value, VT_raw|apply placed_nothing; auto|apply WR_end].
Qed.
End Uses.

(** ** def, undef *)
Definition unq_of (kw : text) : expr := EApp false true (v "unq") [(false, EStr 34 kw)] [].
Definition mark_text (z : Z) (kw gap n : text) : text := show_construct (CSet (BName n) (ENum z)) ++ 10 :: show_construct (CExpr (unq_of kw)) ++ gap ++ n.
Definition mark_contents (z : Z) (kw gap n : text) : contents :=
  inr (tree_construct (CSet (BName n) (ENum z))) :: inl 10 :: inr (tree_construct (CExpr (unq_of kw))) :: map inl (gap ++ n).
Lemma chars_doc w : Forall (fun c => name_char c \/ c = 32) w -> document false SkipNone w (map inl w).
Proof.
  unfold document. generalize level. induction w as [|c w IH]; intros k Hw; [apply wr_end; exact Logic.I|]. inversion Hw as [|c0 w0 Hc Hr]; subst. cbn [map].
  assert (N : c <> 34 /\ c <> 39 /\ c <> 40 /\ permitted c) by (unfold name_char, letter, decimal_digit, permitted, line_end in *; lia). destruct N as (N1 & N2 & N3 & N4).
  apply wr_char; [exact N4|exact N1|exact N2| | |intros []|discriminate|intros []|apply IH, Hr].
  - intros [x E]. injection E as E _. contradiction.
  - intros [x E]. injection E as E _. contradiction.
Qed.
Lemma unq_wf kw : literal_inside 34 kw -> construct_ok false SkipNone (CExpr (unq_of kw)).
Proof.
  intros Hk. apply co_expr; [|exact Logic.I]. apply wf_app; [apply wf_var; split; [constructor|ident]| | |constructor].
  - intros _ _. repeat (apply Forall_cons; [intros [x E]; discriminate E|]). apply Forall_nil.
  - apply Forall_cons; [|constructor]. split; [apply wf_str; [reflexivity|left; reflexivity|exact Hk]|reflexivity].
Qed.
Lemma identifier_chars n : identifier n -> Forall name_char n.
Proof. destruct n as [|c n]; [intros []|]. intros [H1 H2]. constructor; [left; exact H1|exact H2]. Qed.
Lemma mark_doc z kw gap n : identifier n -> literal_inside 34 kw -> Forall (fun c => c = 32) gap -> document false SkipNone (mark_text z kw gap n) (mark_contents z kw gap n).
Proof.
  intros Hn Hk Hg. assert (W1 : construct_ok false SkipNone (CSet (BName n) (ENum z))) by (apply co_set; [exact Hn|apply wf_num]). pose proof (unq_wf kw Hk) as W2.
  unfold mark_text, mark_contents. revert W1 W2. generalize (CSet (BName n) (ENum z)) (CExpr (unq_of kw)). intros c1 c2 W1 W2.
  apply wr_construct; [exact W1|]. apply wr_char; [apply ps_ANY_spec; reflexivity|discriminate|discriminate|no_begin|no_begin|intros []|discriminate|intros []|].
  apply wr_construct; [exact W2|]. apply chars_doc. apply Forall_app. split; [eapply Forall_impl; [|exact Hg]; intros c ->; right; reflexivity|].
  eapply Forall_impl; [|exact (identifier_chars n Hn)]. intros c Hc. left. exact Hc.
Qed.
Lemma behind_name gap n : identifier n -> Forall (fun c => c = 32) gap -> fold_left indent_behind (gap ++ n) IndNone = IndFalse.
Proof.
  intros Hn Hg. rewrite fold_left_app. assert (E : fold_left indent_behind gap IndNone = IndNone) by (induction Hg as [|c g Hc _ IH]; [reflexivity|]; subst c; exact IH). rewrite E.
  pose proof (identifier_chars n Hn) as Hc. assert (One : forall i c, name_char c -> indent_behind i c = IndFalse).
  { intros i c H. unfold indent_behind. unfold name_char, letter, decimal_digit in H. replace ((c =? 10) || (c =? 13)) with false by lia. replace ((c =? 32) || (c =? 9)) with false by lia. reflexivity. }
  destruct n as [|c n]; [destruct Hn|]. inversion Hc as [|c0 n0 H1 H2]; subst. cbn [fold_left]. rewrite One by exact H1. clear -One H2. induction H2 as [|d n Hd _ IH]; [reflexivity|]. cbn [fold_left]. rewrite One by exact Hd. exact IH.
Qed.
Lemma runs_chars w x : runs false x (map inl w) = run false (x ++ w).
Proof. revert x. induction w as [|c w IH]; intros x; [rewrite app_nil_r; reflexivity|]. cbn [map runs]. rewrite IH, <- app_assoc. reflexivity. Qed.

Section Marks.
Variables (ec : ectx) (top : Z) (later : defs).
Notation g := (later ++ library_defs top).
(** at the start of a line the line feed behind the definition is lost *)
Lemma use_mark r a x val z mac mid before body kw gap n fb rest t fb' :
  c_python (e_parse ec) = false -> c_skip (e_parse ec) = SkipNone -> TextSpec.offers ec (lit "unq") ->
  library_defs top = mid ++ (mac, EMacro [lit "name"] body) :: before -> ~ In mac (names mid) -> s_txt a = mac ->
  FormatSpec.replaced_in_turn [(lit "name", n)] body (mark_text z kw gap n) ->
  ~ In mac (names later) -> ~ In (lit "unq") (names later) -> identifier n -> n <> lit "unq" -> n <> lit "__OUTPUT_FILE__" ->
  literal_inside 34 kw -> Forall (fun c => c = 32) gap -> unq_simple (34 :: kw ++ [34]) = Some kw -> placed ec [] kw kw ->
  value ec (InText g) x val -> FormatSpec.inserts val n ->
  page ec ((n, EValue (NInt z)) :: g) IndFalse fb rest t fb' ->
  page ec g (IndStr []) fb (NApply (NVar r a) [x] [] None 0 :: rest) ((if e_trim ec then [] else nl) ++ kw ++ gap ++ n ++ t) fb'.
Proof.
  intros Py Sk Ou El Nm Ea Hr Nl Nu Hn N1 N2 Hk Hg Uq Pk Vx In_ Hp.
  eapply PG_pieces with (fb1 := fb).
  - eapply CA_call with (later := later ++ mid) (before := before) (m := mac) (vs := [val]) (us := [n]) (c := mark_contents z kw gap n).
    + rewrite El, <- app_assoc. reflexivity.
    + unfold names in *. rewrite map_app, in_app_iff. tauto.
    + exact Ea.
    + intros [H|[]]; discriminate H.
    + apply AV_more; [exact Vx|apply AV_end].
    + apply Forall2_cons; [exact In_|apply Forall2_nil].
    + reflexivity.
    + exact Hr.
    + rewrite Py, Sk. apply mark_doc; assumption.
    + rewrite Py. discriminate.
    + apply RP_definition. apply Exists_cons_hd. exact Logic.I.
  - cbn [indented]. unfold mark_contents. cbn [runs run app]. rewrite runs_chars. cbn [app fold_left]. change (indent_behind IndNone 10) with (IndStr []).
    assert (Eg : gap ++ n <> []) by (intros E; apply app_eq_nil in E as [_ E]; subst n; destruct Hn).
    unfold run. destruct (gap ++ n) as [|c0 q] eqn:Eq; [contradiction|]. rewrite <- Eq in *. clear Eg.
    replace (match gap ++ n with [] => [] | _ :: _ => [NPlain (raw (gap ++ n)) (fold_left indent_behind (gap ++ n) IndNone) false] end) with [NPlain (raw (gap ++ n)) (fold_left indent_behind (gap ++ n) IndNone) false] by (rewrite Eq; reflexivity).
    rewrite (behind_name gap n Hn Hg). cbn [app tree_construct tree_binder ExprSpec.tree].
    eapply PG_set with (es := [(n, EValue (NInt z))]).
    + intros [H|[]]. cbn [fst] in H. congruence.
    + apply (DF_value ec g (raw n)). apply VA_constant, int_constant.
    + cbn [trimmed_next app]. apply PG_run.
      * unfold front_cut. cbn [s_txt raw]. destruct (e_trim ec); cbn [andb]; [|reflexivity]. exists nl. split; [reflexivity|]. split; [constructor; [reflexivity|constructor]|]. exact Logic.I.
      * cbn [indent_then]. apply PG_applied with (v := NRaw kw) (u := kw).
        { eapply VA_builtin with (vs := [NStr (raw (34 :: kw ++ [34]))]).
          - apply AV_more; [apply VA_constant; split; [constructor|reflexivity]|apply AV_end].
          - unfold free_at. cbn [known_at s_txt raw tree_name v names map fst]. intros [H|H]; [congruence|]. exact (free_name top later (lit "unq") [] eq_refl eq_refl Nu H).
          - apply (unq_gives ec); assumption. }
        { apply SH_value, VT_raw. }
        { exact Pk. }
        replace (gap ++ n ++ t) with ((gap ++ n) ++ t) by (rewrite app_assoc; reflexivity). apply PG_run.
        { unfold front_cut. rewrite andb_false_r. reflexivity. }
        exact Hp.
Qed.
Lemma define_inside : literal_inside 34 (lit "#define").
Proof. repeat (apply li_char; [discriminate|discriminate|]). apply li_nil. Qed.
Lemma use_def r a x val n fb rest t fb' : s_txt a = lit "def" ->
  c_python (e_parse ec) = false -> c_skip (e_parse ec) = SkipNone -> TextSpec.offers ec (lit "unq") ->
  ~ In (lit "def") (names later) -> ~ In (lit "unq") (names later) -> identifier n -> n <> lit "unq" -> n <> lit "__OUTPUT_FILE__" ->
  value ec (InText g) x val -> FormatSpec.inserts val n ->
  page ec ((n, EValue (NInt 1)) :: g) IndFalse fb rest t fb' ->
  page ec g (IndStr []) fb (NApply (NVar r a) [x] [] None 0 :: rest) ((if e_trim ec then [] else nl) ++ lit "#define " ++ n ++ t) fb'.
Proof.
  intros Ea Py Sk Ou N0 Nu Hn N1 N2 Vx In_ Hp. change (lit "#define " ++ n ++ t) with (lit "#define" ++ lit " " ++ n ++ t).
  eapply use_mark with (mac := lit "def") (mid := firstn 9 (library_defs top)) (before := skipn 10 (library_defs top)) (z := 1%Z); try eassumption; try reflexivity.
  - intros H. cbn [firstn library_defs names map fst In] in H. repeat (destruct H as [H|H]; [discriminate H|]). exact H.
  - replace (mark_text 1 (lit "#define") (lit " ") n) with (lit "($set " ++ n ++ lit " 1)" ++ nl ++ lit "($unq " ++ quoted (lit "#define") ++ lit ") " ++ n ++ []).
    2: { unfold mark_text. rewrite app_nil_r. change (show_construct (CSet (BName n) (ENum 1))) with (lit "($set " ++ n ++ lit " 1)"). rewrite <- !app_assoc. reflexivity. }
    apply FormatCases.turn_of. vm_compute. reflexivity.
  - apply define_inside.
  - constructor; [reflexivity|constructor].
  - apply placed_nothing. auto.
Qed.
Lemma use_undef r a x val n fb rest t fb' : s_txt a = lit "undef" ->
  c_python (e_parse ec) = false -> c_skip (e_parse ec) = SkipNone -> TextSpec.offers ec (lit "unq") ->
  ~ In (lit "undef") (names later) -> ~ In (lit "unq") (names later) -> identifier n -> n <> lit "unq" -> n <> lit "__OUTPUT_FILE__" ->
  value ec (InText g) x val -> FormatSpec.inserts val n ->
  page ec ((n, EValue (NInt 0)) :: g) IndFalse fb rest t fb' ->
  page ec g (IndStr []) fb (NApply (NVar r a) [x] [] None 0 :: rest) ((if e_trim ec then [] else nl) ++ lit "#undef  " ++ n ++ t) fb'.
Proof.
  intros Ea Py Sk Ou N0 Nu Hn N1 N2 Vx In_ Hp. change (lit "#undef  " ++ n ++ t) with (lit "#undef" ++ lit "  " ++ n ++ t).
  eapply use_mark with (mac := lit "undef") (mid := firstn 8 (library_defs top)) (before := skipn 9 (library_defs top)) (z := 0%Z); try eassumption; try reflexivity.
  - intros H. cbn [firstn library_defs names map fst In] in H. repeat (destruct H as [H|H]; [discriminate H|]). exact H.
  - replace (mark_text 0 (lit "#undef") (lit "  ") n) with (lit "($set " ++ n ++ lit " 0)" ++ nl ++ lit "($unq " ++ quoted (lit "#undef") ++ lit ")  " ++ n ++ []).
    2: { unfold mark_text. rewrite app_nil_r. change (show_construct (CSet (BName n) (ENum 0))) with (lit "($set " ++ n ++ lit " 0)"). rewrite <- !app_assoc. reflexivity. }
    apply FormatCases.turn_of. vm_compute. reflexivity.
  - repeat (apply li_char; [discriminate|discriminate|]). apply li_nil.
  - constructor; [reflexivity|constructor; [reflexivity|constructor]].
  - apply placed_nothing. auto.
Qed.
End Marks.

(** ** A run: ($import stdlib)($ def DEBUG)($ if DEBUG 2 3)($ BIN (`1010)) *)
Lemma run_offers w top trim reduce dirs passage input output uniq :
  Forall (fun n => TextSpec.offers (run_ectx (with_library top input w) (library_config trim reduce dirs passage) input output (Proc [] uniq)) (lit n)) ["atoi"; "join"; "split"; "unq"]%string.
Proof.
  repeat (apply Forall_cons; [exists (Ctx false SkipNone [] [] (w_read w) (w_unq w) (w_pyimport w) (w_evalimport w) (w_str w)), input; intros imported; reflexivity|]). apply Forall_nil.
Qed.
Definition lib_world : world :=
  World (fun p => if teqb p (lit "lib/stdlib.yu") then Some (lit stdlib_yu) else None) (fun t => t) (fun _ => Err (Exn IOError "")) (fun _ => Err (Exn ValueError "")) (fun _ => [])
        (fun _ _ => None) (fun _ => None) (fun _ => Err (Exn SyntaxError "")) (fun _ _ => Err (Exn KeyError ""))
        (fun t => t) (fun _ => 0%Z) (fun _ => []) (lit "lib") (fun _ _ _ => lit "{}").
Definition lib_top : Z := 9223372036854775807%Z.
Definition lib_config : config := library_config true false [] 0.
Definition lib_input : option text := Some (lit "a.yu-c").
Definition lib_output : option text := Some (lit "a.c").
Definition def_debug : construct := CExpr (app1 "def" [v "DEBUG"]).
Definition if_debug : construct := CExpr (app1 "if" [v "DEBUG"; ENum 2; ENum 3]).
Definition bin_ten : construct := CExpr (app1 "BIN" [EQuote (lit "1010")]).
Definition lib_source : text := show_construct def_debug ++ 10 :: show_construct if_debug ++ 10 :: show_construct bin_ten.
Definition lib_parts : parts := [inr [tree_construct def_debug]; inl 10; inr [tree_construct if_debug]; inl 10; inr [tree_construct bin_ten]].
Definition lib_main : text := import_text [32] (lit "stdlib") [] ++ lib_source.
Definition lib_result : text := lit "#define DEBUG" ++ 10 :: lit "2" ++ 10 :: lit "10".
Lemma lib_texts : lib_main = lit "($import stdlib)($ def DEBUG)" ++ 10 :: lit "($ if DEBUG 2 3)" ++ 10 :: lit "($ BIN (`1010))".
Proof. vm_compute. reflexivity. Qed.
Lemma lib_computed : pp (with_library lib_top lib_input lib_world) lib_config 3 60 lib_main lib_input lib_output process0 = Ok (PP true lib_result None None false 0).
Proof. vm_compute. reflexivity. Qed.
Lemma lib_found : directories (with_library lib_top lib_input lib_world) lib_config lib_input = [[]; lit "lib"] /\
  library_file (w_read lib_world) [[]; lit "lib"] (lit "stdlib.yu") (lit "lib/stdlib.yu") (lit stdlib_yu).
Proof. split; [reflexivity|]. apply LF_directory; [reflexivity|]. apply ID_later; [reflexivity|]. change (lit "lib/stdlib.yu") with (path_join (lit "lib") (lit "stdlib.yu")). apply ID_here. reflexivity. Qed.
Lemma lib_sheet dirs read kn : sheet false SkipNone dirs read 0 kn lib_source lib_parts kn.
Proof.
  assert (Wd : wf false SkipNone (v "DEBUG")) by (unfold v; well).
  assert (W1 : construct_ok false SkipNone def_debug).
  { apply co_expr; [|exact Logic.I]. apply app1_wf; [ident|]. apply Forall_cons; [split; [exact Wd|reflexivity]|constructor]. }
  assert (W2 : construct_ok false SkipNone if_debug).
  { apply co_expr; [|exact Logic.I]. apply app1_wf; [ident|]. apply Forall_cons; [split; [exact Wd|reflexivity]|]. apply Forall_cons; [split; [apply wf_num|reflexivity]|]. apply Forall_cons; [split; [apply wf_num|reflexivity]|constructor]. }
  assert (W3 : construct_ok false SkipNone bin_ten).
  { apply co_expr; [|exact Logic.I]. apply app1_wf; [ident|]. apply Forall_cons; [split; [|reflexivity]|constructor]. apply wf_quote; [apply permitted_dec; reflexivity|apply balanced_dec; reflexivity]. }
  unfold lib_source, lib_parts. revert W1 W2 W3. generalize def_debug if_debug bin_ten. intros c1 c2 c3 W1 W2 W3.
  apply SH_construct; [exact W1|]. schar. apply SH_construct; [exact W2|]. schar. rewrite <- (app_nil_r (show_construct c3)). apply SH_construct; [exact W3|]. apply SH_end.
Qed.
Definition lib_ec : ectx := run_ectx (with_library lib_top lib_input lib_world) lib_config lib_input lib_output process0.
Lemma lib_page : page lib_ec (library_defs lib_top) (IndStr []) untold (pieces false [] lib_parts) lib_result untold.
Proof.
  assert (E : pieces false [] lib_parts = [tree_construct def_debug; NPlain (raw [10]) (IndStr []) false; tree_construct if_debug; NPlain (raw [10]) (IndStr []) false; tree_construct bin_ten]) by reflexivity. rewrite E. clear E.
  pose proof (run_offers lib_world lib_top true false [] 0 lib_input lib_output []) as Of. inversion Of as [|n0 l0 Oa Of1]; subst. inversion Of1 as [|n0 l0 Oj Of2]; subst. inversion Of2 as [|n0 l0 Os Of3]; subst. inversion Of3 as [|n0 l0 Ou Of4]; subst. clear Of Of1 Of2 Of3 Of4.
  change lib_result with ((if e_trim lib_ec then [] else nl) ++ lit "#define " ++ lit "DEBUG" ++ [10] ++ lit "2" ++ [10] ++ lit "10" ++ []).
  cbn [tree_construct def_debug ExprSpec.tree app1 map fst snd spliced v tree_region tree_name].
  apply (use_def lib_ec lib_top []) with (val := NAtom (raw (lit "DEBUG"))); try reflexivity; try discriminate; try (intros []); [exact Ou|ident| |apply (FormatSpec.IN_atom (raw (lit "DEBUG")))|].
  { apply VA_atom; [|reflexivity| |]; intros H; repeat (destruct H as [H|H]; [discriminate H|]); exact H. }
  apply PG_run; [reflexivity|]. cbn [indent_then].
  assert (S1 : selects (NInt 1) (NInt 2) (NInt 3) (NInt 2)).
  { split; [reflexivity|]. left. split; [|reflexivity]. intros [H|[H|[H|[H|[H|(t & H & _)]]]]]; discriminate H. }
  apply PG_applied with (v := NInt 2) (u := lit "2"); [|apply SH_value, (VT_int 2)| |].
  { cbn [map fst snd spliced ExprSpec.tree v tree_region tree_name]. apply (use_if lib_ec lib_top [(lit "DEBUG", EValue (NInt 1))] _ _ _ _ (NInt 1) [NInt 2; NInt 3] (NInt 2) (NInt 3) (NInt 2) (lit "2"));
      [reflexivity|intros [H|[]]; discriminate H|apply VA_name, at_front| |right; right; reflexivity|exact S1|apply (VT_int 2)].
    apply AV_more; [apply VA_constant, int_constant|]. apply AV_more; [apply VA_constant, int_constant|apply AV_end]. }
  { apply (placed_lines' lib_ec _ [lit "2"]); [reflexivity|discriminate|reflexivity|reflexivity]. }
  apply PG_run; [reflexivity|]. cbn [indent_then].
  apply PG_applied with (v := NInt 10) (u := lit "10"); [|apply SH_value, (VT_int 10)| |apply PG_end].
  { apply (use_bin lib_ec lib_top [(lit "DEBUG", EValue (NInt 1))] _ _ _ (NStr (raw (lit "1010"))) (lit "1010"));
      [reflexivity|intros [H|[]]; discriminate H|intros [H|[]]; discriminate H|exact Oa|apply VA_constant; split; [constructor|reflexivity]|reflexivity|discriminate|].
    apply Forall_cons; [right; reflexivity|]. apply Forall_cons; [left; reflexivity|]. apply Forall_cons; [right; reflexivity|]. apply Forall_cons; [left; reflexivity|]. apply Forall_nil. }
  { apply (placed_lines' lib_ec _ [lit "10"]); [reflexivity|discriminate|reflexivity|reflexivity]. }
Qed.
Lemma define_case : value lib_ec (InText (library_defs lib_top)) (NApply (NVar (RList []) (raw (lit "define"))) [NStr (raw (lit "f(x)")); NStr (raw (lit "a" ++ 10 :: lit "b"))] [] None 0)
    (NRaw (lit "#define f(x) a \" ++ 10 :: lit "b")) /\
  pp (with_library lib_top lib_input lib_world) lib_config 3 60 (lit "($import stdlib)($ define (`f(x)) (`a" ++ 10 :: lit "b))") lib_input lib_output process0 =
    Ok (PP true (lit "#define f(x) a \" ++ 10 :: lit "b") None None false 0).
Proof.
  pose proof (run_offers lib_world lib_top true false [] 0 lib_input lib_output []) as Of. inversion Of as [|n0 l0 Oa Of1]; subst. inversion Of1 as [|n0 l0 Oj Of2]; subst. inversion Of2 as [|n0 l0 Os Of3]; subst. inversion Of3 as [|n0 l0 Ou Of4]; subst. clear Of Of1 Of2 Of3 Of4.
  split; [|vm_compute; reflexivity].
  apply (use_define lib_ec lib_top [] (RList []) _ _ _ (NStr (raw (lit "f(x)"))) (NStr (raw (lit "a" ++ 10 :: lit "b"))) (lit "f(x)") (lit "a" ++ 10 :: lit "b") (lit "f(x)") (lit "a" ++ 10 :: lit "b") [lit "#define f(x) a"; lit "b"]);
    [reflexivity|repeat (apply Forall_cons; [intros []|]); apply Forall_nil|exact Oj|exact Os|exact Ou|apply VA_constant; split; [constructor|reflexivity]|apply VA_constant; split; [constructor|reflexivity]|apply (VT_str (raw _))|apply (VT_str (raw _))| | | |].
  - apply (placed_lines' lib_ec _ [lit "f(x)"]); [reflexivity|discriminate|reflexivity|reflexivity].
  - apply (placed_lines' lib_ec _ [lit "a"; lit "b"]); [reflexivity|discriminate|reflexivity|reflexivity].
  - destruct (TextFacts.parts_exist nl (lit "#define " ++ lit "f(x)" ++ lit " " ++ lit "a" ++ 10 :: lit "b")) as [l Hl]; [discriminate|].
    assert (Hn : nl <> []) by discriminate. destruct (TextFacts.parts_split _ _ _ Hn Hl) as (E & _). assert (El : l = [lit "#define f(x) a"; lit "b"]) by (rewrite <- E; reflexivity). rewrite El in Hl. exact Hl.
  - apply (TextSpec.JO_more (lit " \" ++ nl) (lit "#define f(x) a") (lit "b")). apply TextSpec.JO_one.
Qed.
