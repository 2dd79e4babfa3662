(** * Reading back written expressions: the grammar rules *)
From Coq Require Import List NArith ZArith Bool Lia ZifyBool ZifyNat ZifyN.
From Verif Require Import PyStr PyStrFacts Ast Lex LexSpec LexFacts LexFacts2 NumFacts Parse ProtectSpec ProtectFacts ExprSpec ExprFacts.
Import ListNotations.
Open Scope N_scope.
Open Scope monad_scope.

(** ** What stands behind an expression *)
Definition starts_tail (t : text) : Prop := exists g c r, t = g ++ c :: r /\ Forall white g /\ ~ white c /\ c <> 63 /\ c <> 124 /\ c <> 46.
Lemma tail_follows e t rest : follows e t -> starts_tail t -> follows e (t ++ rest).
Proof.
  intros F (g & c & r & -> & G & W & _ & _ & D). apply follows_more; [exact F|destruct g; discriminate|].
  destruct G as [|a g A G]; cbn [app]; [congruence|]. intros E. injection E as -> _. chars.
Qed.
Lemma tail_branch t rest : starts_tail t -> no_branch (t ++ rest).
Proof. intros (g & c & r & -> & G & W & A & B & _). rewrite <- app_assoc. cbn [app]. apply no_branch_gap; assumption. Qed.
Lemma tail_length t : starts_tail t -> (0 < length t)%nat.
Proof. intros (g & c & r & -> & _). rewrite app_length. cbn [length]. lia. Qed.
Lemma close_tail g : Forall white g -> starts_tail (g ++ [41]).
Proof. intros G. exists g, 41, []. repeat split; [exact G|chars..]. Qed.
Lemma closed_tail tag z : closed_by tag z -> starts_tail z.
Proof. intros [g G|g g' G G']; [apply close_tail, G|]. eexists g, 92, _. repeat split; [exact G|chars..]. Qed.
Lemma spelled_tail python m g e t : Forall white g -> spelled python m e t -> starts_tail (g ++ t).
Proof. intros G S1. apply spelled_head in S1 as (c & r & -> & H). exists g, c, r. repeat split; [exact G|chars..]. Qed.
Lemma item_tail python m g1 b g2 e t r : Forall white g1 -> Forall white g2 -> spelled python m e t -> starts_tail (g1 ++ star b ++ g2 ++ t ++ r).
Proof.
  intros G1 G2 S1. destruct b; cbn [star app].
  - exists g1, 42, (g2 ++ t ++ r). repeat split; [exact G1|chars..].
  - apply spelled_head in S1 as (c & x & -> & H). exists (g1 ++ g2), c, (x ++ r). rewrite <- !app_assoc. repeat split; [apply Forall_app; auto|chars..].
Qed.
Lemma items_tail python m l t : items python m l t -> starts_tail t.
Proof. intros [g G|b e l0 g1 g2 u r G1 G2 Se F It]; [apply close_tail, G|eapply item_tail; eassumption]. Qed.
Lemma arguments_tail python m tag args named t : arguments python m tag args named t -> starts_tail t.
Proof.
  intros [tg g G|a g1 g2 G1 G2|tg b e args0 named0 g1 g2 u r G1 G2 Se O F Ar|tg a e args0 named0 g1 g2 u r Ia N G1 G2 Se St F Ar].
  - apply close_tail, G.
  - eexists g1, 92, _. repeat split; [exact G1|chars..].
  - eapply item_tail; eassumption.
  - eexists g1, 92, _. repeat split; [exact G1|chars..].
Qed.
Lemma items_length python m l t : items python m l t -> (length l < length t)%nat.
Proof.
  induction 1 as [g G|b e l0 g1 g2 u r G1 G2 Se F It IH]; rewrite ?app_length; change (length (lit ")")) with 1%nat; cbn [length]; rewrite ?app_length; cbn [length]; [lia|].
  apply spelled_head in Se as (c & x & -> & _). cbn [length]. lia.
Qed.
Lemma arguments_length python m tag args named t : arguments python m tag args named t -> (length args + length named < length t)%nat.
Proof.
  induction 1 as [tg g G|a g1 g2 G1 G2|tg b e args0 named0 g1 g2 u r G1 G2 Se O F Ar IH|tg a e args0 named0 g1 g2 u r Ia N G1 G2 Se St F Ar IH]; rewrite ?app_length; change (length (lit ")")) with 1%nat; cbn [length]; rewrite ?app_length; change (length (lit ")")) with 1%nat; cbn [length]; [lia|lia| |lia].
  apply spelled_head in Se as (c & x & -> & _). cbn [length]. lia.
Qed.

Section Rules.
Variables (cx : pctx) (k : self) (size : nat).
Notation py := (c_python cx).
Notation md := (c_skip cx).
Notation item_tree := (fun it : bool * expr => spliced (fst it) (tree (snd it))).
Notation named_tree := (fun it : text * expr => (raw (fst it), tree (snd it))).

Definition form_reads (e : expr) (t : text) : Prop := forall f p s rest, follows e rest -> no_branch rest ->
  exists x q, k_form k (Src (t ++ rest) f p) s = Ok (gap (Src rest f q), Some x, s) /\ bare x = tree e.
Definition former_reads (e : expr) (t : text) : Prop := forall f p s rest, follows e rest ->
  exists x q, ps_former cx k (Src (t ++ rest) f p) s = Ok (Src rest f q, Some x, s) /\ bare x = tree e.
Definition lform_reads (e : expr) (t : text) : Prop := forall f p s rest, follows e rest ->
  exists x q, ps_l_form k (Src (t ++ rest) f p) s = Ok (Src rest f q, Some x, s) /\ bare x = tree e.
Definition closes : Prop := forall f p s r, k_form k (Src (41 :: r) f p) s = Ok (Src (41 :: r) f p, None, s).
Hypothesis Hform : forall e t, spelled py md e t -> (length t < size)%nat -> form_reads e t.

(** an expression and what stands behind it *)
Lemma form_at e t r f p s rest : spelled py md e t -> (length t + length r <= size)%nat -> follows e r -> starts_tail r ->
  exists x q, k_form k (Src (t ++ r ++ rest) f p) s = Ok (gap (Src (r ++ rest) f q), Some x, s) /\ bare x = tree e.
Proof.
  intros Se L F T. pose proof (tail_length r T). apply (Hform e t Se ltac:(lia)); [apply tail_follows; assumption|apply tail_branch, T].
Qed.
Lemma gap_spelled g e t r f p : Forall white g -> spelled py md e t -> exists q, gap (Src (g ++ t ++ r) f p) = Src (t ++ r) f q.
Proof. clear Hform. intros G S1. apply spelled_head in S1 as (c & x & -> & H). cbn [app]. apply gap_over; [exact G|chars]. Qed.

Lemma sis_char c x r f p : sis c (Src (x :: r) f p) = (x =? c).
Proof. reflexivity. Qed.
Lemma sis_spelled c e t r f p : spelled py md e t -> ~ head_char c -> sis c (Src (t ++ r) f p) = false.
Proof. intros S1 N. apply spelled_head in S1 as (a & x & -> & H). cbn [app]. rewrite sis_char. destruct (N.eqb_spec a c) as [->|]; [contradiction|reflexivity]. Qed.

(** ** Items of a list *)
Lemma list_items_ok l t : items py md l t -> (length t <= size)%nat ->
  forall n acc f p s rest, (length l < n)%nat ->
  exists xs q, list_items n k acc (gap (Src (t ++ rest) f p)) s = Ok (Src rest f q, acc ++ xs, s)
    /\ map bare xs = map item_tree l.
Proof.
  induction 1 as [g G|b e l g1 g2 u r G1 G2 Se F It IH]; intros Lt n acc f p s rest L; (destruct n as [|n]; [lia|]); cbn [list_items].
  - rewrite <- app_assoc. change (lit ")" ++ rest) with (41 :: rest). destruct (gap_over g 41 rest f p G ltac:(chars)) as [q ->].
    rewrite sis_char. change (41 =? ch_close) with true. cbv iota.
    eexists [], _. rewrite app_nil_r. split; reflexivity.
  - rewrite !app_length in Lt. specialize (IH ltac:(lia)). pose proof (items_tail _ _ _ _ It) as T. rewrite <- !app_assoc.
    assert (X : exists q, (if sis ch_star (gap (Src (g1 ++ star b ++ g2 ++ u ++ r ++ rest) f p)) then gap (sfrom 1 (gap (Src (g1 ++ star b ++ g2 ++ u ++ r ++ rest) f p))) else gap (Src (g1 ++ star b ++ g2 ++ u ++ r ++ rest) f p)) = Src (u ++ r ++ rest) f q /\
       sis ch_star (gap (Src (g1 ++ star b ++ g2 ++ u ++ r ++ rest) f p)) = b /\ sis ch_close (gap (Src (g1 ++ star b ++ g2 ++ u ++ r ++ rest) f p)) = false).
    { destruct b; cbn [star app].
      - destruct (gap_over g1 42 (g2 ++ u ++ r ++ rest) f p G1 ltac:(chars)) as [q ->]. rewrite !sis_char. change (42 =? ch_star) with true. cbv iota.
        unfold sfrom. cbn [s_txt s_file s_pos skipn]. destruct (gap_spelled g2 e u (r ++ rest) f (q + Z.of_nat 1) G2 Se) as [q' ->]. eexists. repeat split.
      - destruct (gap_spelled (g1 ++ g2) e u (r ++ rest) f p (proj2 (Forall_app _ _ _) (conj G1 G2)) Se) as [q E]. rewrite <- app_assoc in E. rewrite E.
        rewrite !(sis_spelled _ e u (r ++ rest) f q Se) by chars. eexists. repeat split. }
    destruct X as (q0 & X1 & X2 & X3). rewrite X3. cbv iota zeta. rewrite X1, X2.
    destruct (form_at e u r f q0 s rest Se ltac:(lia) F T) as (x & q & Ex & Bx). rewrite (bind_ok _ _ _ _ _ Ex). cbv beta iota. rewrite gap_gap.
    destruct (IH n (acc ++ [if b then NEmbed x else x]) f q s rest ltac:(cbn in L; lia)) as (xs & q' & Exs & Bxs).
    rewrite Exs. exists ((if b then NEmbed x else x) :: xs), q'. rewrite <- app_assoc. split; [reflexivity|]. cbn [map fst snd]. rewrite Bxs. unfold spliced. destruct b; cbn [bare]; rewrite Bx; reflexivity.
Qed.

(** ** Arguments *)
Lemma app_name_plain c r f p : c <> 92 -> app_name (Src (c :: r) f p) = None.
Proof. intros H. unfold app_name. rewrite sis_char. replace (c =? ch_bslash) with false by chars. reflexivity. Qed.
Lemma app_name_ident a r f p : identifier a -> stops_at name_char r ->
  app_name (Src (92 :: a ++ r) f p) = let look := gap (Src r f (p + 1 + Z.of_nat (length a))) in if sis ch_dotc look then None else Some (Src a f (p + 1), look).
Proof.
  intros I N. unfold app_name. rewrite sis_char. change (92 =? ch_bslash) with true. cbv iota.
  unfold sfrom. cbn [s_txt s_file s_pos skipn]. rewrite ps_atom_ident by assumption. reflexivity.
Qed.
Lemma dot_not_name t : stops_at name_char (46 :: t).
Proof. cbn. chars. Qed.
Lemma dot_look {A} t f p (x y : A) : (let look := gap (Src (46 :: t) f p) in if sis ch_dotc look then x else y) = x.
Proof. cbv zeta. rewrite gap_char by chars. rewrite sis_char. reflexivity. Qed.
Lemma not_named e t : spelled py md e t -> opens_named e = false -> forall f p rest, app_name (Src (t ++ rest) f p) = None.
Proof.
  induction 1 as [sg sf w v suf S1 S2 S3|q body Py Q Li|w Py Li|o body Q P B|v V|l u It|ev tight f args named g u r G Sf IHf Fo K Ar|ps body u r N P Sb IHb I|v body g1 g2 g3 r V G1 G2 G3 Sb IHb I|b e0 body g1 w g2 u g3 u2 z G1 Bt G2 Se IHe G3 Sb IHb Cb Be Fe Fb|c e1 t1 g1 g2 u S1 IH1 I1 G1 G2 Sc IHc Ic Fo|c e1 e0 t1 g1 g2 u g3 g4 t0 S1 IH1 I1 G1 G2 Sc IHc Ic Fo G3 G4 S0 IH0 Fc|k0 o u d D O W]; intros On f0 p rest.
  - destruct (sign_head sg sf w v suf S1 S2) as (c & r & -> & H). apply app_name_plain. chars.
  - apply app_name_plain. chars.
  - apply literal_begins in Li as (c & x & -> & H). apply app_name_plain. chars.
  - destruct Q as [-> | ->]; apply (app_name_plain 40); discriminate.
  - apply var_head in V as (c & r & -> & H). apply app_name_plain. chars.
  - apply (app_name_plain 40). discriminate.
  - apply (app_name_plain 40). discriminate.
  - rewrite <- app_assoc. destruct P as [|late w a qs g r0 L Ia G P|late w a e0 t0 g1 g2 qs r0 L Ia Se G1 F G2 P|g qs r0 G P]; [contradiction N; reflexivity| | |].
    + destruct L as [|b l g' r' Ib G' L]; rewrite <- !app_assoc; cbn [app].
      * rewrite <- app_assoc. cbn [app]. rewrite app_name_ident by (try assumption; apply dot_not_name). apply dot_look.
      * rewrite <- !app_assoc. rewrite app_name_ident by (try assumption; apply dot_not_name). apply dot_look.
    + destruct L as [|b l g' r' Ib G' L]; [discriminate On|]. rewrite <- !app_assoc. cbn [app]. rewrite <- !app_assoc.
      rewrite app_name_ident by (try assumption; apply dot_not_name). apply dot_look.
    + unfold app_name. cbn. reflexivity.
  - unfold app_name. cbn. reflexivity.
  - apply (app_name_plain 40). discriminate.
  - rewrite <- app_assoc. apply IH1, On.
  - rewrite <- app_assoc. apply IH1, On.
  - apply (opens_head k0 o D) in O as (c & r & -> & H). apply app_name_plain. unfold opens_lform in H. chars.
Qed.
Lemma stops_more P t r : stops_at P t -> t <> [] -> stops_at P (t ++ r).
Proof. destruct t as [|c t]; [congruence|]. intros H _. exact H. Qed.

Lemma app_args_ok (fn : option text) args named t : arguments py md fn args named t -> (forall a, fn = Some a -> identifier a) ->
  (length t <= size)%nat -> closes ->
  forall n acc accn sou f p s rest, (length args + length named < n)%nat ->
  gap sou = gap (Src (t ++ rest) f p) ->
  exists xs ys q, app_args n k fn acc accn sou s = Ok (Src (41 :: rest) f q, acc ++ xs, accn ++ ys, s)
    /\ map bare xs = map item_tree args /\ map (fun y => (bare_src (fst y), bare (snd y))) ys = map named_tree named.
Proof.
  intros Ar If Lt C. revert Lt If. induction Ar as [tg g G|a g1 g2 G1 G2|tg b e args0 named0 g1 g2 u r G1 G2 Se O F Ar IH|tg a e args0 named0 g1 g2 u r Ia N G1 G2 Se St F Ar IH]; intros Lt If n acc accn sou f p s rest L E; (destruct n as [|n]; [lia|]); cbn [app_args]; rewrite E.
  - rewrite <- app_assoc. change (lit ")" ++ rest) with (41 :: rest). destruct (gap_over g 41 rest f p G ltac:(chars)) as [q ->].
    rewrite app_name_plain by discriminate. rewrite !sis_char. change (41 =? ch_star) with false. cbv iota.
    rewrite (bind_ok _ _ _ _ _ (C f q s rest)). cbv beta iota. exists [], []. eexists. rewrite !app_nil_r. repeat split; reflexivity.
  - specialize (If a eq_refl). rewrite <- app_assoc. cbn [app]. destruct (gap_over g1 92 ((a ++ g2 ++ lit ")") ++ rest) f p G1 ltac:(chars)) as [q ->]. rewrite <- !app_assoc.
    change (lit ")" ++ rest) with (41 :: rest).
    rewrite app_name_ident; [|exact If|destruct G2 as [|x g2 X G2]; cbn; chars]. cbv zeta.
    match goal with |- context [gap (Src (g2 ++ 41 :: rest) f ?pp)] => destruct (gap_over g2 41 rest f pp G2 ltac:(chars)) as [q' ->] end.
    rewrite sis_char. change (41 =? ch_dotc) with false. cbv iota. cbn [s_txt]. rewrite (proj2 (teqb_eq a a) eq_refl). cbv iota.
    exists [], [], q'. rewrite !app_nil_r. repeat split; reflexivity.
  - rewrite !app_length in Lt. specialize (IH ltac:(lia) If). pose proof (arguments_tail _ _ _ _ _ _ Ar) as T. rewrite <- !app_assoc.
    assert (X : exists q, (if sis ch_star (gap (Src (g1 ++ star b ++ g2 ++ u ++ r ++ rest) f p)) then gap (sfrom 1 (gap (Src (g1 ++ star b ++ g2 ++ u ++ r ++ rest) f p))) else gap (Src (g1 ++ star b ++ g2 ++ u ++ r ++ rest) f p)) = Src (u ++ r ++ rest) f q /\
       sis ch_star (gap (Src (g1 ++ star b ++ g2 ++ u ++ r ++ rest) f p)) = b /\ app_name (gap (Src (g1 ++ star b ++ g2 ++ u ++ r ++ rest) f p)) = None).
    { destruct b; cbn [star app].
      - destruct (gap_over g1 42 (g2 ++ u ++ r ++ rest) f p G1 ltac:(chars)) as [q ->]. rewrite !sis_char. change (42 =? ch_star) with true. cbv iota.
        unfold sfrom. cbn [s_txt s_file s_pos skipn]. destruct (gap_spelled g2 e u (r ++ rest) f (q + Z.of_nat 1) G2 Se) as [q' ->]. eexists. repeat split.
      - destruct (gap_spelled (g1 ++ g2) e u (r ++ rest) f p (proj2 (Forall_app _ _ _) (conj G1 G2)) Se) as [q Eq]. rewrite <- app_assoc in Eq. rewrite Eq.
        rewrite !(sis_spelled _ e u (r ++ rest) f q Se) by chars. eexists. repeat split. apply (not_named e u Se), O. reflexivity. }
    destruct X as (q0 & X1 & X2 & X3). rewrite X3. cbv iota zeta. rewrite X1, X2.
    destruct (form_at e u r f q0 s rest Se ltac:(lia) F T) as (x & q & Ex & Bx). rewrite (bind_ok _ _ _ _ _ Ex). cbv beta iota.
    destruct (IH n (acc ++ [if b then NEmbed x else x]) accn (gap (Src (r ++ rest) f q)) f q s rest ltac:(cbn in L; lia) (gap_gap _)) as (xs & ys & q' & Ey & By1 & By2).
    rewrite Ey. exists ((if b then NEmbed x else x) :: xs), ys, q'. rewrite <- app_assoc. split; [reflexivity|]. split; [|exact By2].
    cbn [map fst snd]. rewrite By1. unfold spliced. destruct b; cbn [bare]; rewrite Bx; reflexivity.
  - rewrite app_length in Lt. cbn [length] in Lt. rewrite !app_length in Lt. specialize (IH ltac:(lia) If). pose proof (arguments_tail _ _ _ _ _ _ Ar) as T. rewrite <- !app_assoc. cbn [app]. rewrite <- !app_assoc.
    destruct (gap_over g1 92 (a ++ g2 ++ u ++ r ++ rest) f p G1 ltac:(chars)) as [q ->].
    pose proof Se as Sh. apply spelled_head in Sh as (c & x0 & Eu & Hc).
    rewrite app_name_ident; [|exact Ia|]. 2: { rewrite app_assoc. apply stops_more; [exact St|]. rewrite Eu. destruct g2; discriminate. }
    cbv zeta. match goal with |- context [gap (Src (g2 ++ u ++ r ++ rest) f ?pp)] => destruct (gap_spelled g2 e u (r ++ rest) f pp G2 Se) as [q' ->] end.
    rewrite (sis_spelled _ e u (r ++ rest) f q' Se) by chars. cbv iota. cbn [s_txt].
    replace (match tg with Some f0 => teqb f0 a | None => false end) with false
      by (destruct tg as [g|]; [destruct (teqb_spec g a); [subst; contradiction N; reflexivity|reflexivity]|reflexivity]).
    destruct (gap_spelled [] e u (r ++ rest) f q' (Forall_nil _) Se) as [q2 Eg]. cbn [app] in Eg. rewrite Eg.
    destruct (form_at e u r f q2 s rest Se ltac:(lia) F T) as (x & q3 & Ex & Bx). rewrite (bind_ok _ _ _ _ _ Ex). cbv beta iota.
    match goal with |- context [app_args n k tg acc (accn ++ [(?nmx, x)]) _] =>
      destruct (IH n acc (accn ++ [(nmx, x)]) (gap (Src (r ++ rest) f q3)) f q3 s rest ltac:(cbn in L; lia) (gap_gap _)) as (xs & ys & q4 & Ey & By1 & By2) end.
    rewrite Ey. exists xs. eexists (_ :: ys), q4. rewrite <- app_assoc. split; [reflexivity|]. split; [exact By1|].
    cbn [map fst snd]. rewrite Bx, By2. reflexivity.
Qed.

(** ** Parameters *)
Lemma slash_not_refuge a r f p : identifier a -> sstarts (lit "\...") (Src (92 :: a ++ r) f p) = false.
Proof.
  intros I. apply ident_head in I as (c & a' & -> & L). unfold sstarts. cbn [s_txt app]. change (lit "\...") with [92; 46; 46; 46].
  cbn [startswith]. replace (46 =? c) with false by chars. reflexivity.
Qed.
Lemma late_slash late w t : late_text late w -> exists r, w ++ 92 :: t = 92 :: r.
Proof. intros [|b l g u I G L]; eexists; reflexivity. Qed.
Lemma late_ok late w : late_text late w -> forall n bound acc f p s t,
  exists xs q, lambda_bounds (length late + n) k bound acc (Src (w ++ 92 :: t) f p) s
    = lambda_bounds n k bound (acc ++ xs) (Src (92 :: t) f q) s /\ map bare_src xs = map raw late.
Proof.
  induction 1 as [|a l g r I G L IH]; intros n bound acc f p s t.
  - exists [], p. rewrite app_nil_r. split; reflexivity.
  - cbn [length plus lambda_bounds app]. rewrite sis_char. change (92 =? ch_bslash) with true. cbn [negb]. cbv iota.
    rewrite <- !app_assoc. rewrite slash_not_refuge by exact I. unfold sfrom at 1. cbn [s_txt s_file s_pos skipn].
    rewrite ps_atom_ident by (try assumption; apply dot_not_name). change (lit ".." ++ ?x) with (46 :: 46 :: x).
    rewrite sis_char. change (46 =? ch_colon) with false. cbv iota. rewrite (bind_ok _ _ _ _ _ eq_refl). cbv beta iota.
    rewrite sis_char. change (46 =? ch_dotc) with true. cbn [negb]. cbv iota.
    unfold sstarts at 1. cbn [s_txt]. change (startswith (lit "..") (46 :: 46 :: ?x)) with true. cbv iota.
    unfold sfrom at 1. cbn [s_txt s_file s_pos skipn]. destruct (late_slash l r t L) as [r' Er].
    match goal with |- context [gap (Src (g ++ r ++ 92 :: t) f ?pp)] => assert (X : exists q, gap (Src (g ++ r ++ 92 :: t) f pp) = Src (r ++ 92 :: t) f q) by (rewrite Er; apply gap_over; [exact G|chars]); destruct X as [q1 ->] end.
    match goal with |- context [lambda_bounds _ k bound (acc ++ [?x]) (Src _ f ?pp)] => destruct (IH n bound (acc ++ [x]) f pp s t) as (xs & q & E & B); rewrite E; exists (x :: xs), q end.
    rewrite <- app_assoc. split; [reflexivity|]. cbn [map]. rewrite B. reflexivity.
Qed.
Definition steps (p : param) : nat := match p with Param late _ _ => S (length late) | Rest => 1 end.
Lemma late_length late w : late_text late w -> (length late <= length w)%nat.
Proof. clear Hform. induction 1 as [|a l g r I G L IH]; cbn [length]; rewrite ?app_length; lia. Qed.
Lemma steps_length ps t : parameters py md ps t -> (list_sum (map steps ps) <= length t)%nat.
Proof. clear Hform.
  induction 1 as [|late w a ps g r L I G P IH|late w a e u g1 g2 ps r L I Se G1 F G2 P IH|g ps r G P IH]; cbn [map]; [cbn; lia| | |];
    change (list_sum (steps ?p :: map steps ps)) with (steps p + list_sum (map steps ps))%nat; cbn [steps].
  - apply late_length in L. rewrite app_length. cbn [length]. rewrite app_length. cbn [length]. rewrite app_length. lia.
  - apply late_length in L. rewrite app_length. cbn [length]. rewrite app_length. cbn [length]. rewrite !app_length. cbn [length]. rewrite app_length. lia.
  - rewrite !app_length. change (length (lit "\...")) with 4%nat. lia.
Qed.
Definition opener (t : text) : Prop := exists c r, t = c :: r /\ (c = 92 \/ opens_lform c).
Lemma opener_gap g t f p : Forall white g -> opener t -> exists q, gap (Src (g ++ t) f p) = Src t f q.
Proof. unfold opener, opens_lform. intros G (c & r & -> & H). apply gap_over; [exact G|chars]. Qed.
Lemma opener_digit g t : Forall white g -> opener t -> stops_at decimal_digit (g ++ t).
Proof. unfold opener, opens_lform. intros [|a g' A G] (c & r & -> & H); cbn; chars. Qed.
Lemma opener_dot g t f p : Forall white g -> opener t -> sstarts (lit "..") (Src (46 :: g ++ t) f p) = false.
Proof.
  unfold opener, opens_lform. intros G (c & r & -> & H). unfold sstarts. cbn [s_txt]. change (lit "..") with [46; 46].
  destruct G as [|a g A G]; cbn [app startswith]; [replace (46 =? c) with false by chars|replace (46 =? a) with false by chars]; reflexivity.
Qed.
Lemma params_opener ps u t : parameters py md ps u -> opener t -> opener (u ++ t).
Proof.
  intros P O. destruct ps as [|p ps]; [inversion P; subst; exact O|]. apply params_head in P as [r ->]; [|discriminate]. eexists _, _. split; [reflexivity|left; reflexivity].
Qed.
Notation bare_bound := (fun b : list source * source * node => (map bare_src (fst (fst b)), bare_src (snd (fst b)), bare (snd b))).
Lemma bounds_ok ps u : parameters py md ps u -> (length u <= size)%nat ->
  forall n bound f p s ch t, opens_lform ch -> (list_sum (map steps ps) < n)%nat ->
  exists xs q, lambda_bounds n k bound [] (Src (u ++ ch :: t) f p) s = Ok (Src (ch :: t) f q, bound ++ xs, s)
    /\ map bare_bound xs = map (fun p => tree_param p) ps.
Proof.
  induction 1 as [|late w a ps g r Il Ia G P IH|late w a e u g1 g2 ps r Il Ia Se G1 F G2 P IH|g ps r G P IH]; intros Lu n bound f p s ch t Hc L.
  - destruct n as [|n]; [lia|]. cbn [app lambda_bounds]. rewrite sis_char. replace (ch =? ch_bslash) with false by (unfold opens_lform in Hc; chars). cbn [negb]. cbv iota.
    exists [], p. rewrite app_nil_r. split; reflexivity.
  - assert (O : opener (r ++ ch :: t)) by (eapply params_opener; [exact P|eexists _, _; split; [reflexivity|right; exact Hc]]).
    cbn [map list_sum fold_right steps] in L. fold (list_sum (map steps ps)) in L.
    assert (Lr : (length r <= size)%nat) by (rewrite !app_length in Lu; cbn [length] in Lu; rewrite !app_length in Lu; cbn [length] in Lu; rewrite !app_length in Lu; lia). specialize (IH Lr).
    rewrite <- !app_assoc. cbn [app]. rewrite <- !app_assoc. cbn [app]. rewrite <- app_assoc.
    replace n with (length late + S (n - length late - 1))%nat by lia.
    match goal with |- context [w ++ 92 :: ?x] => destruct (late_ok late w Il (S (n - length late - 1)) bound [] f p s x) as (ls & q & E & B) end.
    rewrite E. clear E. cbn [app]. cbn [lambda_bounds]. rewrite sis_char. change (92 =? ch_bslash) with true. cbn [negb]. cbv iota.
    rewrite slash_not_refuge by exact Ia. unfold sfrom at 1. cbn [s_txt s_file s_pos skipn].
    rewrite ps_atom_ident by (try assumption; apply dot_not_name).
    rewrite sis_char. change (46 =? ch_colon) with false. cbv iota. rewrite (bind_ok _ _ _ _ _ eq_refl). cbv beta iota.
    rewrite sis_char. change (46 =? ch_dotc) with true. cbn [negb]. cbv iota. rewrite opener_dot by assumption.
    unfold sfrom. cbn [s_txt s_file s_pos skipn].
    match goal with |- context [gap (Src (g ++ r ++ ch :: t) f ?pp)] => destruct (opener_gap g (r ++ ch :: t) f pp G O) as [q1 ->] end.
    match goal with |- context [lambda_bounds _ k (bound ++ [?b]) [] (Src _ f ?pp)] =>
      destruct (IH (n - length late - 1)%nat (bound ++ [b]) f pp s ch t Hc ltac:(lia)) as (xs & q2 & E2 & B2); rewrite E2; exists (b :: xs), q2 end.
    rewrite <- app_assoc. split; [reflexivity|]. cbn [map fst snd tree_param]. rewrite B, B2. reflexivity.
  - assert (O : opener (r ++ ch :: t)) by (eapply params_opener; [exact P|eexists _, _; split; [reflexivity|right; exact Hc]]).
    cbn [map list_sum fold_right steps] in L. fold (list_sum (map steps ps)) in L.
    rewrite !app_length in Lu; cbn [length] in Lu; rewrite !app_length in Lu; cbn [length] in Lu; rewrite !app_length in Lu; cbn [length] in Lu; rewrite !app_length in Lu. specialize (IH ltac:(lia)).
    rewrite <- !app_assoc. cbn [app]. rewrite <- !app_assoc. cbn [app]. rewrite <- !app_assoc. cbn [app]. rewrite <- !app_assoc.
    replace n with (length late + S (n - length late - 1))%nat by lia.
    match goal with |- context [w ++ 92 :: ?x] => destruct (late_ok late w Il (S (n - length late - 1)) bound [] f p s x) as (ls & q & E & B) end.
    rewrite E. clear E. cbn [app]. cbn [lambda_bounds]. rewrite sis_char. change (92 =? ch_bslash) with true. cbn [negb]. cbv iota.
    rewrite slash_not_refuge by exact Ia. unfold sfrom at 1. cbn [s_txt s_file s_pos skipn].
    rewrite ps_atom_ident by (try assumption; apply colon_not_name). rewrite sis_char. change (58 =? ch_colon) with true. cbv iota.
    unfold sfrom at 1. cbn [s_txt s_file s_pos skipn].
    assert (Fo : follows e (g1 ++ 46 :: g2 ++ r ++ ch :: t)) by (apply follows_dot; [exact F|exact G1|apply opener_digit; assumption]).
    assert (Nb : no_branch (g1 ++ 46 :: g2 ++ r ++ ch :: t)) by (apply no_branch_gap; [exact G1|chars..]).
    match goal with |- context [k_form k (Src _ f ?pp)] => destruct (Hform e u Se ltac:(lia) f pp s _ Fo Nb) as (x & q' & Ex & Bx) end.
    destruct (gap_over g1 46 (g2 ++ r ++ ch :: t) f q' G1 ltac:(chars)) as [q3 E3]. rewrite E3 in Ex.
    rewrite (bind_ok _ _ s (Src (46 :: g2 ++ r ++ ch :: t) f q3, x) s).
    2: { rewrite (bind_ok _ _ _ _ _ Ex). reflexivity. }
    cbv beta iota. rewrite sis_char. change (46 =? ch_dotc) with true. cbn [negb]. cbv iota. rewrite opener_dot by assumption.
    unfold sfrom. cbn [s_txt s_file s_pos skipn].
    match goal with |- context [gap (Src (g2 ++ r ++ ch :: t) f ?pp)] => destruct (opener_gap g2 (r ++ ch :: t) f pp G2 O) as [q1 ->] end.
    match goal with |- context [lambda_bounds _ k (bound ++ [?b]) [] (Src _ f ?pp)] =>
      destruct (IH (n - length late - 1)%nat (bound ++ [b]) f pp s ch t Hc ltac:(lia)) as (xs & q2 & E2 & B2); rewrite E2; exists (b :: xs), q2 end.
    rewrite <- app_assoc. split; [reflexivity|]. cbn [map fst snd tree_param]. rewrite B, B2, Bx. reflexivity.
  - assert (O : opener (r ++ ch :: t)) by (eapply params_opener; [exact P|eexists _, _; split; [reflexivity|right; exact Hc]]).
    cbn [map list_sum fold_right steps] in L. fold (list_sum (map steps ps)) in L. rewrite !app_length in Lu. specialize (IH ltac:(lia)). rewrite <- !app_assoc.
    change (lit "\..." ++ ?x) with (92 :: 46 :: 46 :: 46 :: x).
    destruct n as [|n]; [lia|]. cbn [lambda_bounds]. rewrite sis_char. change (92 =? ch_bslash) with true. cbn [negb]. cbv iota.
    unfold sstarts at 1. cbn [s_txt]. change (startswith (lit "\...") (92 :: 46 :: 46 :: 46 :: ?x)) with true. cbv iota.
    unfold sfrom. cbn [s_txt s_file s_pos skipn].
    match goal with |- context [gap (Src (g ++ r ++ ch :: t) f ?pp)] => destruct (opener_gap g (r ++ ch :: t) f pp G O) as [q1 ->] end.
    match goal with |- context [lambda_bounds _ k (bound ++ [?b]) [] (Src _ f ?pp)] =>
      destruct (IH n (bound ++ [b]) f pp s ch t Hc ltac:(lia)) as (xs & q2 & E2 & B2); rewrite E2; exists (b :: xs), q2 end.
    rewrite <- app_assoc. split; [reflexivity|]. cbn [map fst snd tree_param]. rewrite B2. reflexivity.
Qed.
End Rules.
