(** * Sources with imports are read as they are written (proofs only) *)
From Coq Require Import List NArith ZArith Bool Lia ZifyBool ZifyNat ZifyN.
From Verif Require QuoteFacts CodecFacts ConfFacts.
From Verif Require Import PyStr PyStrFacts Ast Lex LexSpec LexFacts LexFacts2 Parse ParseSpec ParseFacts ParseFacts2 ParseFacts3 ParseFacts5 PpSpec PpFacts ProtectSpec PyLitFacts ProtectFacts QuoteSpec ExprSpec ExprShow ExprFacts ExprFacts2 DocSpec ExprFacts3 DocFacts SheetSpec.
Import ListNotations.
Open Scope N_scope.
Open Scope monad_scope.

(** ** Pieces *)
Lemma not_script path : ~ script path -> teqb (lower (snd (splitext (basename path)))) (lit ".py") = false.
Proof.
  intros Sc. destruct (ConfFacts.file_of_total path) as [n F]. destruct (teqb _ _) eqn:E; [|reflexivity]. exfalso. apply Sc. exists n. split; [exact F|].
  apply (ConfFacts.script_spec path n F). exact E.
Qed.
Definition letters (t : text) : parts := map inl t.
Definition ends_part (d : parts) : Prop := d = [] \/ exists a l, d = a ++ [inr l].
Definition stands (l : list node) (d : parts) : Prop := map bare l = pieces true [] d.
Lemma run_nil f : run f [] = [].
Proof. reflexivity. Qed.
Lemma no_pieces_app a b : no_pieces (a ++ b) = no_pieces a && no_pieces b.
Proof. destruct a; reflexivity. Qed.
Lemma pieces_item l d : forall f w, pieces f w (d ++ [inr l]) = pieces f w d ++ l.
Proof.
  induction d as [|[c|x] d IH]; intros f w; cbn [app pieces]; cbv zeta.
  - rewrite run_nil, app_nil_r. reflexivity.
  - apply IH.
  - rewrite IH, app_assoc. reflexivity.
Qed.
Lemma pieces_letters t : forall f w, pieces f w (letters t) = run f (w ++ t).
Proof. induction t as [|c t IH]; intros f w; cbn [letters map pieces]; [rewrite app_nil_r; reflexivity|]. fold (letters t). rewrite IH, <- app_assoc. reflexivity. Qed.
Lemma pieces_behind l t a : forall f w, pieces f w (a ++ inr l :: letters t) = pieces f w (a ++ [inr l]) ++ run (f && no_pieces (pieces f w (a ++ [inr l]))) t.
Proof.
  induction a as [|[c|x] a IH]; intros f w; cbn [app pieces]; cbv zeta.
  - rewrite pieces_letters, !run_nil, !app_nil_r. reflexivity.
  - apply IH.
  - set (b := run f w ++ x). rewrite IH, <- app_assoc. do 2 f_equal. rewrite (no_pieces_app b). destruct f; [|reflexivity]. cbn [andb]. destruct (no_pieces b); reflexivity.
Qed.
Lemma pieces_run a t : ends_part a -> pieces true [] (a ++ letters t) = pieces true [] a ++ run (no_pieces (pieces true [] a)) t.
Proof. intros [->|(b & l & ->)]; [apply pieces_letters|]. rewrite <- app_assoc. cbn [app]. apply pieces_behind. Qed.
Lemma pieces_nil d : forall f w, pieces f w d = [] -> w = [] /\ Forall (fun x => x = inr []) d.
Proof.
  induction d as [|[c|x] d IH]; intros f w H; cbn [pieces] in H; cbv zeta in H.
  - split; [|constructor]. destruct w; [reflexivity|discriminate H].
  - destruct (IH _ _ H) as [K _]. destruct w; discriminate K.
  - apply app_eq_nil in H as [H1 H2]. apply app_eq_nil in H1 as [H1 ->]. split; [destruct w; [reflexivity|discriminate H1]|]. constructor; [reflexivity|]. apply (IH _ _ H2).
Qed.
Lemma nothing_ends d : pieces true [] d = [] -> ends_part d.
Proof.
  intros H. apply pieces_nil in H as [_ H]. destruct d as [|y d]; [left; reflexivity|]. destruct (@exists_last _ (y :: d) ltac:(discriminate)) as (l & x & E). rewrite E in *.
  apply Forall_app in H as [_ H]. inversion H; subst. right. exists l, []. reflexivity.
Qed.
Lemma stands_more ls : forall l d ex, stands l d -> map bare ex = concat ls -> stands (l ++ ex) (d ++ map inr ls).
Proof.
  unfold stands. induction ls as [|x ls IH]; intros l d ex H E; cbn [map concat] in *.
  - apply map_eq_nil in E as ->. rewrite !app_nil_r. exact H.
  - apply map_eq_app in E as (a & b & -> & Ea & Eb). change (inr x :: map inr ls) with ([@inr char (list node) x] ++ map inr ls). rewrite !app_assoc. apply IH; [|exact Eb].
    rewrite map_app, pieces_item, H, Ea. reflexivity.
Qed.
Lemma bare_enclosed l : map bare (enclose_import l) = in_place (map bare l).
Proof. destruct l as [|x l]; [reflexivity|]. cbn [enclose_import map bare in_place]. rewrite map_app. reflexivity. Qed.

(** ** What is known *)
Definition knows (cx : pctx) (s : yst) (kn : list text) : Prop :=
  (forall n, In n kn <-> dict_mem n (y_source s) = true) /\ In (c_main cx) kn /\ exists d, dict_get source_empty (y_source s) = Some (d, []).
Definition moved (s s' : yst) : Prop := exists x, s' = set_source x s.
Lemma moved_refl s : moved s s.
Proof. exists (y_source s). destruct s. reflexivity. Qed.
Lemma moved_trans a b c : moved a b -> moved b c -> moved a c.
Proof. intros [x ->] [y ->]. exists y. reflexivity. Qed.
Lemma knows_more cx s kn lib e : knows cx s kn -> lib <> source_empty -> knows cx (set_source (dict_set lib e (y_source s)) s) (lib :: kn).
Proof.
  intros (H1 & H2 & d & H3) N. split; [|split; [right; exact H2|]].
  - intros n. cbn [In y_source set_source]. rewrite dict_mem_set', H1. destruct (teqb_spec n lib) as [->|Hn]; cbn [orb]; [tauto|]. split; [intros [E|E]; [congruence|exact E]|tauto].
  - exists d. cbn [y_source set_source]. rewrite CodecFacts.dict_get_set'. destruct (teqb_spec source_empty lib) as [E|_]; [congruence|exact H3].
Qed.
Lemma in_directories_spec cx lib ds : forall p t l, in_directories (c_read cx) lib ds p t -> find_lib cx ds lib l = p /\ c_read cx p = Some t.
Proof.
  induction ds as [|d ds IH]; intros p t l H; inversion H as [? ? ? H1|? ? ? ? H1 H2]; subst; cbn [find_lib]; rewrite H1; [auto|]. apply IH, H2.
Qed.
Lemma library_file_spec cx lib p t : library_file (c_read cx) (c_dirs cx) lib p t -> lib_path cx lib = p /\ c_read cx p = Some t.
Proof. intros [t0 H|p0 t0 H1 H2]; unfold lib_path; [rewrite H; auto|]. rewrite H1. apply (in_directories_spec cx lib _ _ _ _ H2). Qed.
Lemma library_name name : library name <> source_empty.
Proof. intros H. unfold library in H. apply (f_equal (fun l => last l 0)) in H. change (name ++ lit ".yu") with (name ++ [46; 121] ++ [117]) in H. rewrite app_assoc, last_last in H. discriminate H. Qed.

Section Sheet.
Variables (cx : pctx) (imp : text -> M (list node)) (k : self) (size h : nat).
Notation py := (c_python cx).
Notation md := (c_skip cx).
Notation page := (sheet py md (c_dirs cx) (c_read cx)).
Hypothesis Hform : forall e t, spelled py md e t -> (length t < size)%nat -> form_reads k e t.
Hypothesis Hclose : closes k.
Hypothesis Htext : forall dl t d, delim_ok dl -> written py md dl level t d -> (S (length t) < size)%nat -> text_reads k dl t d.
Hypothesis Himp : forall h0 kn t d kn' key s decl, h = S h0 -> page h0 kn t d kn' -> (py = true -> key <> c_main cx) ->
  dict_get key (y_source s) = Some (decl, t) -> knows cx s kn -> exists l s', imp key s = Ok (l, s') /\ stands l d /\ moved s s' /\ knows cx s' kn'.
Hypothesis Hnull : forall s d, (0 < h)%nat -> dict_get source_empty (y_source s) = Some (d, []) -> imp source_empty s = Ok ([], s).

Lemma file_item g q body g' path p t u x h0 kn kn1 rest f z s : py = false -> h = S h0 -> Forall white g -> Forall white g' -> path_of q body path -> ~ script path -> path <> source_empty ->
  library_file (c_read cx) (c_dirs cx) path p t -> unified t u -> page h0 (path :: kn) u x kn1 -> knows cx s kn ->
  exists z' l s', text_item cx imp k (Src (import_file g q body g' ++ rest) f z) s = Ok (Src rest f z', Some (enclose_import l), s') /\ stands l x /\ moved s s' /\ knows cx s' kn1.
Proof.
  intros Py Hh Wg Wg' [Hq Li Hp] Sc Np Lf Hu D Kn. destruct (library_file_spec _ _ _ _ Lf) as [E1 E2].
  set (s1 := set_source (dict_set path (DPath p, u) (y_source s)) s).
  destruct (Himp h0 (path :: kn) u x kn1 path s1 (DPath p) Hh D ltac:(intros Py'; congruence)) as (l & s' & El & Hl & Hm & Hk).
  { unfold s1. cbn [y_source set_source]. rewrite CodecFacts.dict_get_set', teqb_refl. reflexivity. }
  { apply knows_more; assumption. }
  assert (Et : import_file g q body g' ++ rest = lit "($import" ++ g ++ q :: body ++ q :: g' ++ 41 :: rest).
  { unfold import_file. repeat (rewrite <- app_assoc; cbn [app]). reflexivity. }
  assert (Es : import_source cx path false s = Ok (path, s1)).
  { rewrite import_new by (left; reflexivity). rewrite E1, E2. unfold s1. do 4 f_equal. f_equal. eapply unified_fun; [apply unify_eol_unified|exact Hu]. }
  assert (Lt : c_literal_tail q (body ++ q :: g' ++ 41 :: rest) = Some (Datatypes.S (length body))) by (apply literal_tail; [destruct Hq; lia|exact Li]).
  assert (Wq : ~ white q) by (unfold white, blank, line_end; destruct Hq; lia).
  assert (W41 : ~ white 41) by (unfold white, blank, line_end; lia).
  assert (Eq : forall z0, exists z1, ps_quote py (Src (q :: body ++ q :: g' ++ 41 :: rest) f z0) = Ok (Src (g' ++ 41 :: rest) f z1, Some (NStr (raw (q :: body ++ [q]))))).
  { intros z0. rewrite Py. unfold ps_quote. cbn [s_txt].
    assert (Ef : firstn (Datatypes.S (Datatypes.S (length body))) (q :: body ++ q :: g' ++ 41 :: rest) = q :: body ++ [q]).
    { change (q :: body ++ q :: g' ++ 41 :: rest) with (q :: (body ++ [q] ++ g' ++ 41 :: rest)). rewrite app_assoc, firstn_cons. f_equal.
      replace (Datatypes.S (length body)) with (length (body ++ [q])) by (rewrite app_length; cbn; lia). rewrite firstn_app, Nat.sub_diag, firstn_all, firstn_O, app_nil_r. reflexivity. }
    assert (Ek : skipn (Datatypes.S (Datatypes.S (length body))) (q :: body ++ q :: g' ++ 41 :: rest) = g' ++ 41 :: rest).
    { change (q :: body ++ q :: g' ++ 41 :: rest) with (q :: (body ++ [q] ++ g' ++ 41 :: rest)). rewrite app_assoc. rewrite skipn_cons.
      replace (Datatypes.S (length body)) with (length (body ++ [q])) by (rewrite app_length; cbn; lia). rewrite skipn_app, Nat.sub_diag, skipn_all. reflexivity. }
    eexists. unfold c_literal, ch_dquote, ch_squote, sfrom, sto. cbn [s_txt s_file s_pos]. destruct Hq as [-> | ->]; cbn [N.eqb Pos.eqb]; rewrite Lt; cbn [option_map]; rewrite Ef, Ek; reflexivity. }
  destruct (Eq (z + Z.of_nat 8 + Z.of_nat (length g))%Z) as (z1 & Eq').
  assert (Ei : exists z2, ps_import cx imp k (Src (import_file g q body g' ++ rest) f z) s = Ok (Src rest f z2, Some (enclose_import l), s')).
  { unfold ps_import. rewrite Et. change (sstarts ps_IMPORT _) with true. cbn [negb]. cbv zeta.
    change (sfrom 8 _) with (Src (g ++ q :: body ++ q :: g' ++ 41 :: rest) f (z + Z.of_nat 8)). rewrite gap_run by assumption.
    assert (Ea : ps_atom (Src (q :: body ++ q :: g' ++ 41 :: rest) f (z + Z.of_nat 8 + Z.of_nat (length g))) = (Src (q :: body ++ q :: g' ++ 41 :: rest) f (z + Z.of_nat 8 + Z.of_nat (length g)), None)).
    { unfold ps_atom. cbn [s_txt]. replace (ps_LETTER q) with false by (destruct Hq as [-> | ->]; reflexivity). rewrite sfrom_0. reflexivity. }
    rewrite Ea. unfold bind, lift, ret. rewrite Eq'. cbv beta iota. cbn [leg_quote s_txt raw]. rewrite (QuoteFacts.unq_literal cx q body path Hq Hp).
    pose proof (not_script _ Sc) as Sc'. destruct (splitext (basename path)) as [fn ext]. cbn [snd] in Sc'. rewrite Sc', Es. rewrite El. cbv beta iota.
    rewrite gap_run; [|exact Wg'|exact W41]. unfold skip_tag. change (sstarts ps_IMPORT_T _) with false. cbv beta iota.
    change (sis ch_close _) with true. cbv beta iota. unfold sfrom. cbn [s_txt s_file s_pos skipn]. eexists. reflexivity. }
  destruct Ei as [z2 Ei]. exists z2, l, s'. split; [|split; [exact Hl|split; [|exact Hk]]].
  - unfold text_item. unfold bind, ret in *. rewrite Et in *.
    change (ps_set k (Src (lit "($import" ++ g ++ q :: body ++ q :: g' ++ 41 :: rest) f z) s) with (Ok (Src (lit "($import" ++ g ++ q :: body ++ q :: g' ++ 41 :: rest) f z, @None node, s)). cbv beta iota.
    change (ps_let k (Src (lit "($import" ++ g ++ q :: body ++ q :: g' ++ 41 :: rest) f z) s) with (Ok (Src (lit "($import" ++ g ++ q :: body ++ q :: g' ++ 41 :: rest) f z, @None node, s)). cbv beta iota.
    rewrite Ei. reflexivity.
  - eapply moved_trans; [exists (dict_set path (DPath p, u) (y_source s)); reflexivity|exact Hm].
Qed.

(** ** One step *)
Definition stopped (t : text) (d : parts) (kn kn' : list text) : Prop :=
  match t with [] => d = [] /\ kn' = kn | c :: r => permitted c /\ exists d', page h kn r d' kn' /\ d = inl c :: d' end.
Lemma sheet_step kn t d kn' f p s : page h kn t d kn' -> (length t <= size)%nat -> knows cx s kn ->
  (text_item cx imp k (Src t f p) s = Ok (Src t f p, None, s) /\ stopped t d kn kn') \/
  (exists x r q l d2 s' kn1, text_item cx imp k (Src t f p) s = Ok (Src r f q, Some x, s') /\
     map bare x = l /\ (length r < length t)%nat /\ page h kn1 r d2 kn' /\ d = inr l :: d2 /\ moved s s' /\ knows cx s' kn1).
Proof.
  intros D L Kn. inversion D as [h0 kn0|h0 kn0 c r d0 kn0' P N1 N2 B1 B2 K Z H|h0 kn0 q body r d0 kn0' Py Q Li H|h0 kn0 w r d0 kn0' Py Li H|h0 kn0 cm r d0 kn0' T H|h0 kn0 o body r d0 kn0' Qo P B H|h0 kn0 c tc r d0 kn0' W H
    |h0 kn0 g name g' r d0 kn0' In Wg Wg' M H|h0 kn0 g name g' pa t0 u x kn1 r d0 kn0' In Wg Wg' M Lf Hu Hx H|h0 kn0 g q body g' path pa t0 u x kn1 r d0 kn0' Py Wg Wg' Po Sc Np Lf Hu Hx H]; try match goal with E : S _ = h |- _ => rename E into Eh end; subst; try rewrite Eh in H |- *.
  - left. split; [|split; reflexivity]. apply no_item; [intros _; apply no_string; intros (p' & q' & r' & _ & _ & X); destruct p'; discriminate| | |exact Logic.I|].
    + intros [x X]; discriminate X.
    + intros [x X]; discriminate X.
    + unfold comment_begins. destruct md; [tauto| |]; [intros [[x X]|[x X]]|intros [x X]]; discriminate X.
  - left. split; [|split; eauto]. apply no_item; auto. intros Py. apply no_string, Z, Py.
  - right. eexists _, r, _, _, d0, s, kn. split; [apply literal_item; assumption|]. split; [reflexivity|]. split; [cbn [length]; rewrite app_length; cbn [length]; lia|]. auto using moved_refl.
  - right. eexists _, r, _, _, d0, s, kn. split; [apply python_item; [exact Py|exact Li]|]. split; [reflexivity|]. split; [|auto using moved_refl].
    destruct (literal_head _ _ Li) as (c & x & -> & _). cbn [app length]. rewrite app_length. lia.
  - right. eexists _, r, _, _, d0, s, kn. split; [apply comment_item, T|]. split; [reflexivity|]. split; [|auto using moved_refl].
    rewrite app_length. assert (length cm <> O) by (destruct T; cbn; lia). lia.
  - right. destruct (quotation_reads cx imp k o body f p s r Qo P B) as (x & q & E & Bx).
    exists [x], r, q, [NStr (raw body)], d0, s, kn. split; [exact E|]. split; [cbn [map]; rewrite Bx; reflexivity|]. split; [rewrite !app_length; cbn [length]; lia|auto using moved_refl].
  - right. assert (Lc : (length tc <= size)%nat) by (rewrite app_length in L; lia).
    destruct (construct_reads cx imp k size Hform Hclose Htext c tc f p s r W Lc) as (x & q & E & Bx).
    exists [x], r, q, [tree_construct c], d0, s, kn. split; [exact E|]. split; [cbn [map]; rewrite Bx; reflexivity|].
    split; [|auto using moved_refl]. apply (construct_head cx) in W as (y & W). rewrite W. cbn [length app]. rewrite app_length. lia.
  - right. destruct Kn as (K1 & K2 & e & K3). eexists [], r, _, [], d0, s, kn. split; [|split; [reflexivity|split; [unfold import_text; rewrite !app_length; cbn; lia|split; [exact H|split; [reflexivity|split; [apply moved_refl|split; eauto]]]]]].
    rewrite text_item_import by assumption. unfold bind, ret. rewrite import_known by (apply K1, M). rewrite (Hnull s e ltac:(lia) K3). reflexivity.
  - right. destruct (library_file_spec _ _ _ _ Lf) as [E1 E2].
    set (s1 := set_source (dict_set (library name) (DPath pa, u) (y_source s)) s).
    destruct (Himp h0 (library name :: kn) u x kn1 (library name) s1 (DPath pa) (eq_sym Eh) Hx) as (l & s' & El & Hl & Hm & Hk).
    { intros _ E. apply M. rewrite E. apply Kn. }
    { unfold s1. cbn [y_source set_source]. rewrite CodecFacts.dict_get_set', teqb_refl. reflexivity. }
    { apply knows_more; [exact Kn|apply library_name]. }
    eexists (enclose_import l), r, _, _, d0, s', kn1. split; [|split; [rewrite bare_enclosed, Hl; reflexivity|split; [unfold import_text; rewrite !app_length; cbn; lia|split; [exact H|split; [reflexivity|split; [|exact Hk]]]]]].
    + rewrite text_item_import by assumption. unfold bind, ret. rewrite import_new.
      * rewrite E1, E2. replace (unify_eol t0) with u by (eapply unified_fun; [exact Hu|apply unify_eol_unified]). fold s1. rewrite El. reflexivity.
      * right. destruct (dict_mem (library name) (y_source s)) eqn:Dm; [|reflexivity]. exfalso. apply M. apply Kn, Dm.
    + eapply moved_trans; [exists (dict_set (library name) (DPath pa, u) (y_source s)); reflexivity|exact Hm].
  - right. destruct (file_item g q body g' path pa t0 u x h0 kn kn1 r f p s Py (eq_sym Eh) Wg Wg' Po Sc Np Lf Hu Hx Kn) as (z & l & s' & El & Hl & Hm & Hk).
    eexists (enclose_import l), r, z, _, d0, s', kn1. split; [exact El|]. split; [rewrite bare_enclosed, Hl; reflexivity|]. split; [unfold import_file; rewrite !app_length; cbn [length]; rewrite !app_length; cbn [length]; lia|auto].
Qed.
Lemma items_sheet n : forall ast kn t d kn' f p s, page h kn t d kn' -> (length t <= size)%nat -> (length t < n)%nat -> knows cx s kn ->
  exists r q extra ls d2 s' kn1, text_items cx imp n k ast (Src t f p) s = Ok (Src r f q, ast ++ extra, s') /\ map bare extra = concat ls /\
    (length r <= length t)%nat /\ (length r = length t -> r = t /\ ls = []) /\ (length r < length t -> ls <> [])%nat /\ stopped r d2 kn1 kn' /\ d = map inr ls ++ d2 /\ moved s s' /\ knows cx s' kn1.
Proof.
  induction n as [|n IH]; intros ast kn t d kn' f p s D L Ln Kn; [lia|]. cbn [text_items].
  destruct (sheet_step kn t d kn' f p s D L Kn) as [[E R]|(x & r & q & l & d2 & s1 & kn1 & E & S1 & Lr & D2 & -> & M1 & K1)].
  - rewrite (bind_ok _ _ _ _ _ E). cbv beta iota. exists t, p, [], [], d, s, kn. rewrite app_nil_r. split; [reflexivity|]. split; [reflexivity|]. split; [lia|].
    split; [auto|]. split; [lia|]. split; [exact R|]. split; [reflexivity|]. split; [apply moved_refl|exact Kn].
  - rewrite (bind_ok _ _ _ _ _ E). cbv beta iota.
    destruct (IH (ast ++ x) kn1 r d2 kn' f q s1 D2 ltac:(lia) ltac:(lia) K1) as (r2 & q2 & ex & ls & d4 & s2 & kn2 & E2 & B2 & L2 & _ & _ & R2 & -> & M2 & K2).
    exists r2, q2, (x ++ ex), (l :: ls), d4, s2, kn2. rewrite E2, <- app_assoc. split; [reflexivity|]. split; [rewrite map_app, B2, S1; reflexivity|].
    split; [lia|]. split; [lia|]. split; [discriminate|]. split; [exact R2|]. split; [reflexivity|]. split; [eapply moved_trans; eassumption|exact K2].
Qed.

(** ** The generator of the text *)
Variable file : option text.
Definition plain_kept (d1 : parts) (g : tgen) : Prop :=
  match tg_plain g with
  | None => tg_ret g = [] /\ ends_part d1
  | Some pg => tg_ret g = s_txt (pg_rest pg) /\ (0 < pg_i pg)%nat /\ (pg_i pg <= length (s_txt (pg_sou pg)))%nat /\
      (length (s_txt (tg_sou g)) <= length (tg_ret g))%nat /\ s_file (pg_sou pg) = file /\
      (s_txt (tg_sou g) = tg_ret g -> exists ast0 a, tg_ast g = ast0 ++ [pg_leg pg] /\ ends_part a /\ stands ast0 a /\
         d1 = a ++ letters (firstn (pg_i pg) (s_txt (pg_sou pg))) /\
         pg_ind pg = fold_left indent_behind (firstn (pg_i pg) (s_txt (pg_sou pg))) (if no_pieces ast0 then IndStr [] else IndNone)) /\
      (s_txt (tg_sou g) <> tg_ret g -> ends_part d1)
  end.
Definition at_point (d0 : parts) (g : tgen) (t : text) (kn kn' : list text) : Prop :=
  exists d1 d2, stands (tg_ast g) d1 /\ plain_kept d1 g /\ d0 = d1 ++ d2 /\ s_txt (tg_sou g) = t /\ s_file (tg_sou g) = file /\
  (if tg_started g then stopped t d2 kn kn' else page h kn t d2 kn').
Lemma no_pieces_bare l : no_pieces (map bare l) = no_pieces l.
Proof. destruct l; reflexivity. Qed.
Lemma leg_stands pg a ast0 : ends_part a -> stands ast0 a -> firstn (pg_i pg) (s_txt (pg_sou pg)) <> [] ->
  pg_ind pg = fold_left indent_behind (firstn (pg_i pg) (s_txt (pg_sou pg))) (if no_pieces ast0 then IndStr [] else IndNone) ->
  stands (ast0 ++ [pg_leg pg]) (a ++ letters (firstn (pg_i pg) (s_txt (pg_sou pg)))).
Proof.
  intros Ha Hs Hn Hi. unfold stands in *. rewrite map_app, (pieces_run _ _ Ha), <- Hs. f_equal. unfold pg_leg. cbn [map bare]. rewrite Hi, no_pieces_bare.
  unfold bare_src, sto. cbn [s_txt]. unfold run. destruct (firstn (pg_i pg) (s_txt (pg_sou pg))); [congruence|reflexivity].
Qed.
Lemma letters_app a b : letters (a ++ b) = letters a ++ letters b.
Proof. apply map_app. Qed.
Lemma text_plain_sheet g c r d1 : permitted c -> plain_kept d1 g -> s_file (tg_sou g) = file -> stands (tg_ast g) d1 -> s_txt (tg_sou g) = c :: r ->
  exists g', text_plain g = Ok g' /\ plain_kept (d1 ++ [inl c]) g' /\ stands (tg_ast g') (d1 ++ [inl c]) /\ s_txt (tg_sou g') = r /\ s_file (tg_sou g') = file.
Proof.
  intros P K Fi S E. unfold text_plain.
  set (nonempty := match tg_ast g with [] => false | _ => true end).
  destruct (teqb (s_txt (tg_sou g)) (tg_ret g) && nonempty) eqn:R.
  - apply andb_true_iff in R as [R1 R2]. apply teqb_eq in R1. unfold plain_kept in K.
    destruct (tg_plain g) as [pg|]; [|destruct K as [K _]; rewrite R1, K in E; discriminate].
    destruct K as (L1 & L2 & L3 & _ & Lf & L4 & _). destruct (L4 R1) as (ast0 & a & A & Ea & Sa & Ed & Ei). rewrite A, removelast_last.
    assert (Er : s_txt (pg_rest pg) = c :: r) by congruence.
    destruct (plain_next_depth cx imp k size Hform Htext DSource pg c r Er P) as (pg' & -> & G1 & G2 & G3 & G4).
    eexists. split; [reflexivity|].
    assert (R' : s_txt (pg_rest pg') = r).
    { unfold pg_rest in *. rewrite G1, G2. destruct (pg_sou pg) as [tt f p]. cbn [sfrom s_txt] in *.
      replace (Datatypes.S (pg_i pg)) with (pg_i pg + 1)%nat by lia. rewrite <- skipn_skipn', Er. reflexivity. }
    assert (Lp : (Datatypes.S (pg_i pg) <= length (s_txt (pg_sou pg)))%nat).
    { unfold pg_rest in Er. destruct (pg_sou pg) as [tt f p]. cbn [sfrom s_txt] in *.
      apply (f_equal (@length BinNums.N)) in Er. rewrite skipn_length in Er. cbn in Er. lia. }
    assert (Ew : firstn (pg_i pg') (s_txt (pg_sou pg')) = firstn (pg_i pg) (s_txt (pg_sou pg)) ++ [c]).
    { rewrite G1, G2. unfold pg_rest in Er. destruct (pg_sou pg) as [tt f p]. cbn [sfrom s_txt] in *.
      clear -Er. revert tt Er. induction (pg_i pg) as [|i IH]; intros [|x tt] Er; cbn in *; try discriminate.
      + injection Er as -> ->. reflexivity.
      + f_equal. apply IH, Er. }
    assert (Ei' : pg_ind pg' = fold_left indent_behind (firstn (pg_i pg') (s_txt (pg_sou pg'))) (if no_pieces ast0 then IndStr [] else IndNone)).
    { rewrite Ew, fold_left_app, <- Ei. exact G4. }
    assert (Ed' : d1 ++ [inl c] = a ++ letters (firstn (pg_i pg') (s_txt (pg_sou pg')))).
    { rewrite Ed, Ew, letters_app, <- app_assoc. reflexivity. }
    assert (Fr : s_file (pg_rest pg') = file) by (unfold pg_rest; rewrite G1; exact Lf).
    split; [|split; [|split; [exact R'|exact Fr]]].
    + unfold plain_kept. cbn [tg_sou tg_ast tg_plain tg_ret]. rewrite R'. split; [reflexivity|].
      split; [rewrite G2; lia|]. split; [rewrite G1, G2; exact Lp|]. split; [lia|]. split; [rewrite G1; exact Lf|].
      split; [|intros X; congruence]. intros _. exists ast0, a. auto.
    + cbn [tg_ast]. rewrite Ed'. apply leg_stands; try assumption. rewrite Ew. destruct (firstn (pg_i pg) (s_txt (pg_sou pg))); discriminate.
  - assert (Ed : ends_part d1).
    { apply andb_false_iff in R as [R|R].
      - unfold plain_kept in K. destruct (tg_plain g) as [pg|]; [|apply K]. apply K. intros X. rewrite X in R.
        rewrite (proj2 (teqb_eq (tg_ret g) (tg_ret g)) eq_refl) in R. discriminate R.
      - apply nothing_ends. unfold stands in S. rewrite <- S. unfold nonempty in R. destruct (tg_ast g); [reflexivity|discriminate R]. }
    assert (Nn : (if nonempty then IndNone else IndStr []) = (if no_pieces (tg_ast g) then IndStr [] else IndNone)) by (unfold nonempty; destruct (tg_ast g); reflexivity).
    rewrite Nn. set (pg := plain_start (tg_sou g) (tg_sq g) (tg_pth g) (if no_pieces (tg_ast g) then IndStr [] else IndNone)).
    assert (Er : s_txt (pg_rest pg) = c :: r) by (unfold pg_rest; cbn [pg plain_start pg_i pg_sou]; rewrite sfrom_0; exact E).
    destruct (plain_next_depth cx imp k size Hform Htext DSource pg c r Er P) as (pg' & -> & G1 & G2 & G3 & G4). cbn [pg plain_start pg_i pg_sou pg_sq pg_pth pg_ind] in G1, G2, G3, G4.
    eexists. split; [reflexivity|].
    assert (R' : s_txt (pg_rest pg') = r).
    { unfold pg_rest in *. rewrite G1, G2. destruct (tg_sou g) as [tt f p]. cbn [sfrom s_txt] in *. rewrite E. reflexivity. }
    assert (Ew : firstn (pg_i pg') (s_txt (pg_sou pg')) = [c]) by (rewrite G1, G2, E; reflexivity).
    assert (Ei' : pg_ind pg' = fold_left indent_behind (firstn (pg_i pg') (s_txt (pg_sou pg'))) (if no_pieces (tg_ast g) then IndStr [] else IndNone)).
    { rewrite Ew. exact G4. }
    assert (Ed' : d1 ++ [inl c] = d1 ++ letters (firstn (pg_i pg') (s_txt (pg_sou pg')))) by (rewrite Ew; reflexivity).
    assert (Fr : s_file (pg_rest pg') = file) by (unfold pg_rest; rewrite G1; exact Fi).
    split; [|split; [|split; [exact R'|exact Fr]]].
    + unfold plain_kept. cbn [tg_sou tg_ast tg_plain tg_ret]. rewrite R'. split; [reflexivity|].
      split; [rewrite G2; lia|]. split; [rewrite G1, G2, E; cbn [length]; lia|]. split; [lia|]. split; [rewrite G1; exact Fi|].
      split; [|intros X; congruence]. intros _. exists (tg_ast g), d1. auto.
    + cbn [tg_ast]. rewrite Ed'. apply leg_stands; try assumption. rewrite Ew. discriminate.
Qed.

Lemma text_next_sheet d0 g s t kn kn' : at_point d0 g t kn kn' -> (tg_started g = true -> t <> []) -> knows cx s kn ->
  (length t <= size)%nat ->
  exists g' t' s' kn1, text_next cx imp k g s = Ok (g', s') /\ at_point d0 g' t' kn1 kn' /\ tg_started g' = true /\ moved s s' /\ knows cx s' kn1 /\
      (length t' + (if tg_started g then 1 else 0) <= length t)%nat.
Proof.
  intros (d1 & d2 & S & K & Ed & Et & Ef & A) St Kn L. unfold text_next.
  assert (G1 : exists g1 t1 d1 d2, (if tg_started g then lift (text_plain g) else ret g) s = Ok (g1, s) /\ plain_kept d1 g1 /\ stands (tg_ast g1) d1 /\
    d0 = d1 ++ d2 /\ s_txt (tg_sou g1) = t1 /\ s_file (tg_sou g1) = file /\ page h kn t1 d2 kn' /\
    (length t1 + (if tg_started g then 1 else 0) <= length t)%nat).
  { destruct (tg_started g); [|exists g, t, d1, d2; split; [reflexivity|repeat (split; [assumption|]); lia]].
    destruct t as [|c r]; [destruct (St eq_refl eq_refl)|]. destruct A as (P & d' & D' & ->).
    destruct (text_plain_sheet g c r d1 P K Ef S Et) as (g' & H & K' & S' & Er & Fr). exists g', r, (d1 ++ [inl c]), d'. unfold lift. rewrite H. cbn [length].
    split; [reflexivity|]. split; [exact K'|]. split; [exact S'|]. split; [rewrite <- app_assoc; exact Ed|]. split; [exact Er|]. split; [exact Fr|]. split; [exact D'|lia]. }
  clear d1 d2 S K Ed A. destruct G1 as (g1 & t1 & d1 & d2 & E1 & K1 & S1 & Ed & Et1 & Ef1 & D & Lg). rewrite (bind_ok _ _ _ _ _ E1).
  destruct (tg_sou g1) as [tx f p] eqn:Es. cbn [s_txt s_file] in *. subst tx f.
  destruct (items_sheet (Datatypes.S (length t1)) (tg_ast g1) kn t1 d2 kn' file p s D ltac:(lia) ltac:(lia) Kn) as (r & q & ex & ls & d4 & s' & kn1 & Ei & Bx & Lr & Same & More & R & Ed2 & Mv & Kn').
  rewrite (bind_ok _ _ _ _ _ Ei). cbv beta iota. eexists _, r, s', kn1. split; [reflexivity|].
  split; [|split; [reflexivity|split; [exact Mv|split; [exact Kn'|lia]]]].
  exists (d1 ++ map inr ls), d4. cbn [tg_sou tg_ast tg_started s_txt s_file]. split; [apply stands_more; assumption|].
  split; [|split; [rewrite Ed, Ed2; apply app_assoc|auto]].
  assert (Ends : ls <> [] -> ends_part (d1 ++ map inr ls)).
  { intros Hx. right. destruct (exists_last Hx) as (l & x & ->). exists (d1 ++ map inr l), x. rewrite map_app, app_assoc. reflexivity. }
  unfold plain_kept in *. cbn [tg_sou tg_ast tg_plain tg_ret s_txt]. destruct (tg_plain g1) as [pg|].
  2:{ destruct K1 as [K1 K2]. split; [exact K1|]. destruct ls; [cbn [map]; rewrite app_nil_r; exact K2|apply Ends; discriminate]. }
  rewrite Es in K1. cbn [s_txt] in K1. destruct K1 as (L1 & L2 & L3 & L4 & L6 & L7 & L8). split; [exact L1|]. split; [exact L2|]. split; [exact L3|].
  split; [lia|]. split; [exact L6|]. split.
  - intros E'. assert (length r = length t1) as Le. { apply (f_equal (@length BinNums.N)) in E'. lia. } destruct (Same Le) as [-> ->].
    cbn [concat] in Bx. apply map_eq_nil in Bx as ->. cbn [map]. rewrite !app_nil_r. apply L7, E'.
  - intros E'. destruct (Nat.eq_dec (length r) (length t1)) as [Le|Ne]; [|apply Ends, More; lia].
    destruct (Same Le) as [-> ->]. cbn [map]. rewrite app_nil_r. apply L8, E'.
Qed.
Lemma drive_sheet k' d0 n : (forall g, k_next k' g = text_next cx imp k g) ->
  forall g s t kn kn', at_point d0 g t kn kn' -> (tg_started g = true -> t <> []) -> knows cx s kn ->
  (length t <= size)%nat -> (length t + (if tg_started g then 0 else 1) < n)%nat ->
  exists q g' s', drive n k' (stop_of DSource) g s = Ok (Src [] file q, g', s') /\ stands (tg_ast g') d0 /\ moved s s' /\ knows cx s' kn'.
Proof.
  intros Hk. induction n as [|n IH]; intros g s t kn kn' A St Kn L Ln; [lia|]. cbn [drive]. rewrite Hk.
  destruct (text_next_sheet d0 g s t kn kn' A St Kn L) as (g' & t' & s1 & kn1 & E & A' & S' & Mv & Kn1 & L'). rewrite (bind_ok _ _ _ _ _ E).
  pose proof A' as A2. destruct A2 as (d1 & d2 & S1 & _ & Ed & Et & Ef & R). rewrite S' in R. destruct t' as [|c r]; cbn [stopped] in R.
  - destruct R as [-> ->]. cbn [stop_of]. unfold stop_eof. destruct (tg_sou g') as [tx f q] eqn:Es. cbn [s_txt s_file] in *. subst tx f. eexists _, _, _. split; [reflexivity|]. rewrite Ed, app_nil_r. auto.
  - cbn [stop_of]. unfold stop_eof. rewrite Et.
    destruct (IH g' s1 (c :: r) kn1 kn' A' ltac:(discriminate) Kn1) as (q & g2 & s2 & E2 & S2 & M2 & K2); [rewrite ?S'; destruct (tg_started g); lia..|].
    exists q, g2, s2. split; [exact E2|]. split; [exact S2|]. split; [eapply moved_trans; eassumption|exact K2].
Qed.
End Sheet.

Lemma sheet_nil python m dirs read h kn d kn' : sheet python m dirs read h kn [] d kn' -> d = [] /\ kn' = kn.
Proof.
  intros P. remember [] as t eqn:E. destruct P as [| | |? ? w ? ? ? Py L H|? ? cm ? ? ? T H|? ? o body ? ? ? Qo P B H|? ? c0 tc ? ? ? W H| | |]; try discriminate E; auto.
  - apply app_eq_nil in E as [-> _]. destruct (literal_head _ _ L) as (c & x & X & _). discriminate X.
  - apply app_eq_nil in E as [-> _]. inversion T.
  - destruct Qo as [-> | ->]; discriminate E.
  - apply app_eq_nil in E as [-> _]. apply (construct_head (Ctx python m [] [] (fun _ => None) (fun x => x) (fun _ => Ok tt) (fun x => Ok x) (fun _ => []))) in W as (y & W). discriminate W.
Qed.
Lemma parse_sheet cx h : forall n key s decl kn t d kn', (h <= n)%nat -> sheet (c_python cx) (c_skip cx) (c_dirs cx) (c_read cx) h kn t d kn' -> no_header cx key t ->
  dict_get key (y_source s) = Some (decl, t) -> knows cx s kn ->
  exists l s', yuparse cx (S n) key s = Ok (l, s') /\ stands l d /\ moved s s' /\ knows cx s' kn'.
Proof.
  induction h as [h IH] using lt_wf_ind. intros n key s decl kn t d kn' Hn P H D Kn. destruct t as [|a t].
  { exists [], s. cbn [yuparse]. unfold yuparse_with, bind, get_st. rewrite D. split; [reflexivity|].
    destruct (sheet_nil _ _ _ _ _ _ _ _ P) as [-> ->]. split; [reflexivity|]. split; [apply moved_refl|exact Kn]. }
  set (t1 := a :: t) in *.
  assert (Hd : (if teqb (c_main cx) key && c_python cx then ps_header_python (Src t1 (Some key) 0) else ret (Src t1 (Some key) 0, None)) s
               = Ok (Src t1 (Some key) 0, None, s)).
  { destruct H as [H|[H|H]].
    - rewrite H, andb_false_r. reflexivity.
    - replace (teqb (c_main cx) key) with false by (symmetry; apply teqb_neq; congruence). reflexivity.
    - destruct (_ && _); [apply H|reflexivity]. }
  cbn [yuparse]. unfold yuparse_with. unfold bind at 1, get_st. rewrite D. unfold t1 at 1. cbv iota. fold t1.
  rewrite (bind_ok _ _ _ _ _ Hd). cbn [s_txt]. unfold t1 at 1. cbv iota.
  set (K := knot cx (yuparse cx n) (S (length t))).
  destruct (drive_sheet cx (yuparse cx n) K (S (length t)) h (fun e u W L => knot_reads cx _ (length t) e u W (le_S_n _ _ L)) (knot_close cx _ (length t)) (fun dl u x Dk W L => knot_texts cx _ (length t) dl u x Dk W (le_S_n _ _ L))) with
    (file := Some key) (k' := knot cx (yuparse cx n) (S (S (length t)))) (d0 := d) (n := S (S (length t1))) (g := text_start (Src t1 (Some key) 0)) (s := s) (t := t1) (kn := kn) (kn' := kn') as (q & g & s' & E & S1 & M1 & K1).
  - intros h0 kn0 t0 d0 kn0' key0 s0 decl0 -> P0 N0 D0 K0. destruct n as [|n]; [lia|]. apply (IH h0 ltac:(lia) n key0 s0 decl0 kn0 t0 d0 kn0' ltac:(lia) P0); [|exact D0|exact K0].
    destruct (c_python cx) eqn:Py; [right; left; apply N0; reflexivity|left; exact Py].
  - intros s0 d0 H0 D0. destruct n as [|n]; [lia|]. cbn [yuparse]. unfold yuparse_with, bind, get_st. rewrite D0. reflexivity.
  - reflexivity.
  - exists [], d. cbn [text_start tg_ast tg_started tg_sou s_txt s_file]. split; [reflexivity|]. split; [split; [reflexivity|left; reflexivity]|]. repeat split. exact P.
  - discriminate.
  - exact Kn.
  - unfold t1. cbn. lia.
  - cbn [text_start tg_started]. lia.
  - unfold drive_text. cbn [s_txt]. change (length t1) with (S (length t)) at 1. cbn [stop_of] in E. rewrite (bind_ok _ _ _ _ _ E). eexists _, _. split; [reflexivity|]. split; [exact S1|]. split; [exact M1|exact K1].
Qed.

(** a construct in its usual writing *)
Lemma SH_construct python m dirs read h kn c r d kn' : construct_ok python m c -> sheet python m dirs read h kn r d kn' ->
  sheet python m dirs read h kn (show_construct c ++ r) (inr [tree_construct c] :: d) kn'.
Proof. intros C. apply SH_spelled, construct_shown, C. Qed.
