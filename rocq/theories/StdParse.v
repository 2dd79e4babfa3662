(** * A source that begins with the import of a library whose pieces are known (proofs only) *)
From Coq Require Import List NArith ZArith Bool Lia ZifyBool ZifyNat ZifyN.
From Verif Require QuoteFacts CodecFacts ConfFacts.
From Verif Require Import PyStr PyStrFacts Ast Lex LexSpec LexFacts LexFacts2 Parse ParseSpec ParseFacts ParseFacts2 ParseFacts3 ParseFacts5 PpSpec PpFacts ProtectSpec PyLitFacts ProtectFacts QuoteSpec ExprSpec ExprShow ExprFacts ExprFacts2 DocSpec ExprFacts3 DocFacts SheetSpec SheetFacts.
Import ListNotations.
Open Scope N_scope.
Open Scope monad_scope.

Definition front (x l : list node) : Prop := exists ex, l = x ++ ex.
(** not a run of text *)
Definition closed_by (x : list node) : Prop := exists x0, x = x0 ++ [NImportEnd].

Section Front.
Variables (cx : pctx) (imp : text -> M (list node)).
Lemma items_front n : forall k ast sou s sou' ast' s', text_items cx imp n k ast sou s = Ok (sou', ast', s') -> front ast ast'.
Proof.
  induction n as [|n IH]; intros k ast sou s sou' ast' s' H; [discriminate H|]. cbn [text_items] in H. unfold bind in H.
  destruct (text_item cx imp k sou s) as [[[so [l|]] s1]|e|]; try discriminate H.
  - apply IH in H as [ex ->]. exists (l ++ ex). rewrite app_assoc. reflexivity.
  - injection H as <- <- <-. exists []. rewrite app_nil_r. reflexivity.
Qed.
Lemma plain_front file x g g' d1 : closed_by x -> plain_kept file d1 g -> front x (tg_ast g) -> text_plain g = Ok g' -> front x (tg_ast g').
Proof.
  intros [x0 Hx] K [ex Hf] H. unfold text_plain in H. destruct (teqb (s_txt (tg_sou g)) (tg_ret g)) eqn:R; cbn [andb] in H.
  - apply teqb_eq in R. unfold plain_kept in K. destruct (tg_plain g) as [pg|].
    2:{ destruct K as [K _]. rewrite Hf, Hx in H. destruct x0; cbn [app] in H; discriminate H. }
    destruct K as (_ & _ & _ & _ & _ & K & _). destruct (K R) as (ast0 & a & A & _).
    assert (Ne : match tg_ast g with [] => false | _ => true end = true) by (rewrite A; destruct ast0; reflexivity). rewrite Ne in H.
    destruct (plain_next pg) as [pg'| |]; try discriminate H. injection H as <-. cbn [tg_ast]. rewrite A, removelast_last.
    assert (Hex : ex <> []).
    { intros ->. rewrite app_nil_r, Hx in Hf. rewrite A in Hf. apply app_inj_tail in Hf as [_ Hf]. discriminate Hf. }
    destruct (exists_last Hex) as (ex0 & z & ->). rewrite A, app_assoc in Hf. apply app_inj_tail in Hf as [-> _]. exists (ex0 ++ [pg_leg pg']). rewrite app_assoc. reflexivity.
  - destruct (plain_next _) as [pg'| |]; try discriminate H. injection H as <-. cbn [tg_ast]. rewrite Hf, <- app_assoc. eexists. reflexivity.
Qed.
Lemma next_front k file x g g' s s' d1 : closed_by x -> plain_kept file d1 g -> front x (tg_ast g) -> text_next cx imp k g s = Ok (g', s') -> front x (tg_ast g').
Proof.
  intros Hx K Hf H. unfold text_next, bind in H.
  assert (G : exists g1, (if tg_started g then lift (text_plain g) else ret g) s = Ok (g1, s) /\ front x (tg_ast g1)).
  { destruct (tg_started g); [|exists g; split; [reflexivity|exact Hf]]. unfold lift in *. destruct (text_plain g) as [g1| |] eqn:E; try discriminate H. exists g1. split; [reflexivity|]. eapply plain_front; eassumption. }
  destruct G as (g1 & E & Hf1). rewrite E in H. destruct (text_items cx imp _ k (tg_ast g1) (tg_sou g1) s) as [[[so ast] s1]| |] eqn:Ei; try discriminate H.
  injection H as <- <-. cbn [tg_ast]. apply items_front in Ei as [ey ->]. destruct Hf1 as [ex ->]. exists (ex ++ ey). rewrite app_assoc. reflexivity.
Qed.
End Front.

Section Sheet.
Variables (cx : pctx) (imp : text -> M (list node)) (k : self) (size h : nat).
Notation py := (c_python cx).
Notation md := (c_skip cx).
Notation page := (sheet py md (c_dirs cx) (c_read cx)).
Hypothesis Hform : forall e t, spelled py md e t -> (length t < size)%nat -> form_reads k e t.
Hypothesis Hclose : closes k.
Hypothesis Htext : forall dl t d, delim_ok dl -> written py md dl level t d -> (S (length t) < size)%nat -> text_reads k dl t d.
Hypothesis Himp : forall h0 kn t d kn' key s decl, h = S h0 -> page h0 kn t d kn' -> (py = true -> key <> c_main cx) ->
  dict_get key (y_source s) = Some (decl, t) -> knows cx s kn -> exists l s', imp key s = Ok (l, s') /\ stands l d /\ moved s s' /\ knows cx s' kn'.
Hypothesis Hnull : forall s d, (0 < h)%nat -> dict_get source_empty (y_source s) = Some (d, []) -> imp source_empty s = Ok ([], s).
Variable file : option text.

Lemma drive_front x k' d0 n : closed_by x -> (forall g, k_next k' g = text_next cx imp k g) ->
  forall g s t kn kn', at_point cx h file d0 g t kn kn' -> front x (tg_ast g) -> (tg_started g = true -> t <> []) -> knows cx s kn ->
  (length t <= size)%nat -> (length t + (if tg_started g then 0 else 1) < n)%nat ->
  exists q g' s', drive n k' (stop_of DSource) g s = Ok (Src [] file q, g', s') /\ stands (tg_ast g') d0 /\ front x (tg_ast g') /\ moved s s' /\ knows cx s' kn'.
Proof.
  intros Hx Hk. induction n as [|n IH]; intros g s t kn kn' A F St Kn L Ln; [lia|]. cbn [drive]. rewrite Hk.
  destruct (text_next_sheet cx imp k size h Hform Hclose Htext Himp Hnull file d0 g s t kn kn' A St Kn L) as (g' & t' & s1 & kn1 & E & A' & S' & Mv & Kn1 & L'). rewrite (bind_ok _ _ _ _ _ E).
  assert (F' : front x (tg_ast g')) by (destruct A as (d1 & _ & _ & K & _); eapply next_front; eassumption).
  pose proof A' as A2. destruct A2 as (d1 & d2 & S1 & _ & Ed & Et & Ef & R). rewrite S' in R. destruct t' as [|c r]; cbn [stopped] in R.
  - destruct R as [-> ->]. cbn [stop_of]. unfold stop_eof. destruct (tg_sou g') as [tx f q] eqn:Es. cbn [s_txt s_file] in *. subst tx f. eexists _, _, _. split; [reflexivity|]. rewrite Ed, app_nil_r. auto.
  - cbn [stop_of]. unfold stop_eof. rewrite Et.
    destruct (IH g' s1 (c :: r) kn1 kn' A' F' ltac:(discriminate) Kn1) as (q & g2 & s2 & E2 & S2 & F2 & M2 & K2); [rewrite ?S'; destruct (tg_started g); lia..|].
    exists q, g2, s2. split; [exact E2|]. split; [exact S2|]. split; [exact F2|]. split; [eapply moved_trans; eassumption|exact K2].
Qed.
(** the first item is known *)
Lemma drive_first x k' pre t n s s1 kn d kn' : closed_by x -> (forall g, k_next k' g = text_next cx imp k g) ->
  (forall p, exists q, text_item cx imp k (Src (pre ++ t) file p) s = Ok (Src t file q, Some x, s1)) ->
  page h kn t d kn' -> knows cx s1 kn -> pre <> [] -> (length t <= size)%nat -> (S (length (pre ++ t)) < n)%nat ->
  exists q g' s', drive n k' (stop_of DSource) (text_start (Src (pre ++ t) file 0)) s = Ok (Src [] file q, g', s') /\
    stands (tg_ast g') (inr (map bare x) :: d) /\ front x (tg_ast g') /\ moved s1 s' /\ knows cx s' kn'.
Proof.
  intros Hx Hk Hi P Kn Np L Ln. destruct n as [|n]; [lia|]. cbn [drive]. rewrite Hk.
  assert (N : exists g' t' kn1 s2, text_next cx imp k (text_start (Src (pre ++ t) file 0)) s = Ok (g', s2) /\ at_point cx h file (inr (map bare x) :: d) g' t' kn1 kn' /\ tg_started g' = true /\
              moved s1 s2 /\ knows cx s2 kn1 /\ (length t' <= length t)%nat /\ front x (tg_ast g')).
  { destruct (Hi 0%Z) as [q Hq].
    assert (L0 : (length t < length (pre ++ t))%nat) by (rewrite app_length; destruct pre; [congruence|cbn [length]; lia]).
    destruct (items_sheet cx imp k size h Hform Hclose Htext Himp Hnull (length (pre ++ t)) x kn t d kn' file q s1 P L L0 Kn) as (r & q2 & ex & ls & d2 & s2 & kn1 & E & Bx & Lr & _ & _ & R & Ed & Mv & Kn').
    assert (E0 : text_items cx imp (S (length (pre ++ t))) k [] (Src (pre ++ t) file 0) s = Ok (Src r file q2, x ++ ex, s2)) by (cbn [text_items]; rewrite (bind_ok _ _ _ _ _ Hq); exact E).
    assert (E3 : text_next cx imp k (text_start (Src (pre ++ t) file 0)) s = Ok (TG (Src r file q2) (x ++ ex) 0 0 [] None true, s2)).
    { unfold text_next. cbn [text_start tg_started tg_sou tg_ast tg_sq tg_pth tg_ret tg_plain]. unfold bind at 1, ret at 1. cbv beta iota. cbn [tg_sou tg_ast s_txt]. rewrite (bind_ok _ _ _ _ _ E0). reflexivity. }
    rewrite E3. eexists _, r, kn1, s2. split; [reflexivity|]. split; [|split; [reflexivity|split; [exact Mv|split; [exact Kn'|split; [exact Lr|exists ex; reflexivity]]]]].
    exists (inr (map bare x) :: map inr ls), d2. cbn [tg_ast tg_sou s_txt s_file tg_started]. split; [|split; [|split; [rewrite Ed; reflexivity|auto]]].
    - change (inr (map bare x) :: map inr ls) with ([@inr char (list node) (map bare x)] ++ map inr ls). apply stands_more; [|exact Bx]. unfold stands. cbn [pieces]. cbv zeta. rewrite !run_nil, app_nil_r. reflexivity.
    - unfold plain_kept. cbn [tg_plain tg_ret]. split; [reflexivity|]. right. destruct (@exists_last _ (map bare x :: ls) ltac:(discriminate)) as (l & y & Ey).
      exists (map inr l), y. change (inr (map bare x) :: map inr ls) with (map (@inr char (list node)) (map bare x :: ls)). rewrite Ey, map_app. reflexivity. }
  destruct N as (g' & t' & kn1 & s2 & E & A & St & Mv & Kn1 & Lt & F). rewrite (bind_ok _ _ _ _ _ E).
  pose proof A as A2. destruct A2 as (d1 & d2 & S1 & _ & Ed & Et & Ef & R). rewrite St in R. destruct t' as [|c r]; cbn [stopped] in R.
  - destruct R as [-> ->]. cbn [stop_of]. unfold stop_eof. destruct (tg_sou g') as [tx f q] eqn:Es. cbn [s_txt s_file] in *. subst tx f. eexists _, _, _. split; [reflexivity|]. rewrite Ed, app_nil_r. auto.
  - cbn [stop_of]. unfold stop_eof. rewrite Et.
    destruct (drive_front x k' (inr (map bare x) :: d) n Hx Hk g' s2 (c :: r) kn1 kn' A F ltac:(discriminate) Kn1) as (q & g2 & s3 & E2 & S2 & F2 & M2 & K2); [lia|rewrite St; rewrite app_length in Ln; lia|].
    exists q, g2, s3. split; [exact E2|]. split; [exact S2|]. split; [exact F2|]. split; [eapply moved_trans; eassumption|exact K2].
Qed.
End Sheet.

(** ($import name) at the front, where the library becomes the pieces [x] *)
Lemma parse_after cx h n key s decl g name g' p u x s1 kn t d kn' :
  (h <= n)%nat -> identifier name -> Forall white g -> Forall white g' -> dict_mem (library name) (y_source s) = false ->
  (exists c, library_file (c_read cx) (c_dirs cx) (library name) p c /\ unified c u) ->
  yuparse cx n (library name) (set_source (dict_set (library name) (DPath p, u) (y_source s)) s) = Ok (x, s1) -> x <> [] ->
  sheet (c_python cx) (c_skip cx) (c_dirs cx) (c_read cx) h kn t d kn' -> knows cx s1 kn ->
  no_header cx key (import_text g name g' ++ t) -> dict_get key (y_source s) = Some (decl, import_text g name g' ++ t) ->
  exists ex s', yuparse cx (S n) key s = Ok (NImportBegin :: x ++ NImportEnd :: ex, s') /\ map bare ex = pieces false [] d /\ moved s1 s'.
Proof.
  intros Hn In Wg Wg' Dm (c & Lf & Hu) Hx Hne P Kn H D. destruct (library_file_spec _ _ _ _ Lf) as [E1 E2].
  set (pre := import_text g name g') in *.
  assert (Np : exists a r, pre = a :: r) by (eexists _, _; reflexivity). destruct Np as (a & r & Np).
  set (t1 := pre ++ t) in *. assert (T1 : t1 = a :: (r ++ t)) by (unfold t1; rewrite Np; reflexivity).
  assert (Hd : (if teqb (c_main cx) key && c_python cx then ps_header_python (Src t1 (Some key) 0) else ret (Src t1 (Some key) 0, None)) s
               = Ok (Src t1 (Some key) 0, None, s)).
  { destruct H as [H|[H|H]].
    - rewrite H, andb_false_r. reflexivity.
    - replace (teqb (c_main cx) key) with false by (symmetry; apply teqb_neq; congruence). reflexivity.
    - destruct (_ && _); [apply H|reflexivity]. }
  cbn [yuparse]. unfold yuparse_with. unfold bind at 1, get_st. rewrite D, T1. cbv iota. rewrite <- T1.
  rewrite (bind_ok _ _ _ _ _ Hd). cbn [s_txt]. rewrite T1. cbv iota. rewrite <- T1.
  destruct (drive_first cx (yuparse cx n) (knot cx (yuparse cx n) (S (length (r ++ t)))) (S (length (r ++ t))) h (fun e w W L => knot_reads cx _ (length (r ++ t)) e w W (le_S_n _ _ L)) (knot_close cx _ (length (r ++ t))) (fun dl w y Dk W L => knot_texts cx _ (length (r ++ t)) dl w y Dk W (le_S_n _ _ L))) with
    (file := Some key) (k' := knot cx (yuparse cx n) (S (S (length (r ++ t))))) (x := enclose_import x) (pre := pre) (t := t) (n := S (S (length t1))) (s := s) (s1 := s1) (kn := kn) (d := d) (kn' := kn') as (q & g1 & s' & E & S1 & [ex F1] & M1 & K1).
  - intros h0 kn0 t0 d0 kn0' key0 s0 decl0 -> P0 N0 D0 K0. destruct n as [|n]; [lia|]. apply (parse_sheet cx h0 n key0 s0 decl0 kn0 t0 d0 kn0' ltac:(lia) P0); [|exact D0|exact K0].
    destruct (c_python cx) eqn:Py; [right; left; apply N0; reflexivity|left; exact Py].
  - intros s0 d0 H0 D0. destruct n as [|n]; [lia|]. cbn [yuparse]. unfold yuparse_with, bind, get_st. rewrite D0. reflexivity.
  - destruct x as [|y x]; [congruence|]. exists (NImportBegin :: y :: x). reflexivity.
  - reflexivity.
  - intros p0. eexists. unfold pre. rewrite text_item_import by assumption. unfold bind, ret. rewrite import_new by (right; exact Dm). rewrite E1, E2.
    replace (unify_eol c) with u by (eapply unified_fun; [exact Hu|apply unify_eol_unified]). rewrite Hx. reflexivity.
  - exact P.
  - exact Kn.
  - rewrite Np. discriminate.
  - rewrite app_length. lia.
  - unfold t1. lia.
  - unfold drive_text. cbn [s_txt]. replace (length t1) with (S (length (r ++ t))) by (rewrite T1; reflexivity). fold t1 in E. replace (length t1) with (S (length (r ++ t))) in E by (rewrite T1; reflexivity).
    cbn [stop_of] in E. rewrite (bind_ok _ _ _ _ _ E). exists ex, s'. split; [|split; [|exact M1]].
    + unfold ret. rewrite F1. destruct x as [|y x]; [congruence|]. cbn [enclose_import app]. rewrite <- app_assoc. reflexivity.
    + rewrite F1 in S1. unfold stands in S1. rewrite map_app in S1. cbn [pieces] in S1. cbv zeta in S1. rewrite run_nil in S1. cbn [app] in S1. apply app_inv_head in S1.
      rewrite S1. f_equal. destruct x; [congruence|reflexivity].
Qed.
