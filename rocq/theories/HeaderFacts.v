(** * The magic comment *)
From Coq Require Import List NArith ZArith Bool Lia ZifyBool ZifyNat ZifyN.
From Verif Require Import PyStr PyStrFacts Ast Lex LexSpec LexFacts LexFacts2 Parse ParseSpec ParseFacts ParseFacts2 ParseFacts3 EnvSpec EnvFacts PpSpec PpFacts.
Import ListNotations.
Open Scope N_scope.
Open Scope monad_scope.

Definition after_coding (s : text) : option text :=
  if startswith (lit "coding:") (lower s) || startswith (lit "coding=") (lower s) then
    let r := skipn 7 s in
    let r := skipn (span_len ps_SPACE r) r in
    if startswith (lit "yupp") (lower r) then Some (skipn 4 r) else None
  else None.
Lemma lower_app a b : lower (a ++ b) = lower a ++ lower b.
Proof. apply map_app. Qed.
Lemma lower_length a : length (lower a) = length a.
Proof. apply map_length. Qed.
Lemma lower_split s p q : lower s = p ++ q -> exists a b, s = a ++ b /\ lower a = p /\ lower b = q.
Proof.
  intros E. exists (firstn (length p) s), (skipn (length p) s). split; [symmetry; apply firstn_skipn|].
  unfold lower in *. rewrite <- firstn_map, <- skipn_map, E, firstn_length_app, skipn_length_app. auto.
Qed.
Lemma lower_one c k : lower_char c = k -> (k <= 64) -> c = k.
Proof. unfold lower_char. destruct ((65 <=? c) && (c <=? 90)) eqn:E; lia. Qed.
Lemma after_coding_spec s z : after_coding s = Some z <-> coding_then s z.
Proof.
  unfold after_coding, coding_then. split.
  - destruct (startswith (lit "coding:") (lower s) || startswith (lit "coding=") (lower s)) eqn:E; [|discriminate]. cbv zeta.
    assert (K : exists k sep r, s = k ++ sep :: r /\ lower k = lit "coding" /\ (sep = 58 \/ sep = 61)).
    { apply orb_true_iff in E. destruct E as [E|E]; apply startswith_spec in E as [q E]; apply lower_split in E as (a & b & -> & La & _);
        [change (lit "coding:") with (lit "coding" ++ [58]) in La|change (lit "coding=") with (lit "coding" ++ [61]) in La];
        apply lower_split in La as (k & c & -> & Lk & Lc); destruct c as [|c [|]]; try discriminate; injection Lc as Lc; apply lower_one in Lc; [|lia| |lia]; subst c;
        exists k; eexists; exists b; (split; [rewrite <- app_assoc; reflexivity|]); auto. }
    destruct K as (k & sep & r & -> & Lk & Hs).
    assert (L6 : length k = 6%nat) by (rewrite <- lower_length, Lk; reflexivity).
    assert (S7 : skipn 7 (k ++ sep :: r) = r).
    { change (k ++ sep :: r) with (k ++ [sep] ++ r). rewrite app_assoc.
      replace 7%nat with (length (k ++ [sep])) by (rewrite app_length, L6; reflexivity). apply skipn_length_app. }
    rewrite S7. pose proof (longest_run_span ps_SPACE blank r ps_SPACE_spec) as (Sp & Fb & Sb).
    destruct (startswith (lit "yupp") _) eqn:E2; [|discriminate]. intros Hz.
    assert (Ez : skipn 4 (skipn (span_len ps_SPACE r) r) = z) by congruence. clear Hz. subst z.
    apply startswith_spec in E2 as [q E2]. apply lower_split in E2 as (y & z & Ey & Ly & _).
    exists k, sep, (firstn (span_len ps_SPACE r) r), y. rewrite Ey.
    assert (L4 : length y = 4%nat) by (rewrite <- lower_length, Ly; reflexivity).
    rewrite <- L4 at 1. rewrite skipn_length_app. split; [|auto].
    do 2 f_equal. rewrite <- Ey. exact Sp.
  - intros (k & sep & b & y & -> & Lk & Hs & Fb & Ly).
    assert (L6 : length k = 6%nat) by (rewrite <- lower_length, Lk; reflexivity).
    assert (L4 : length y = 4%nat) by (rewrite <- lower_length, Ly; reflexivity).
    assert (P : startswith (lit "coding:") (lower (k ++ sep :: b ++ y ++ z)) || startswith (lit "coding=") (lower (k ++ sep :: b ++ y ++ z)) = true).
    { rewrite lower_app, Lk. destruct Hs as [-> | ->]; cbn [lower map]; [apply orb_true_iff; left|apply orb_true_iff; right];
        apply startswith_spec; eexists; reflexivity. }
    rewrite P. cbv zeta.
    assert (S7 : skipn 7 (k ++ sep :: b ++ y ++ z) = b ++ y ++ z).
    { change (k ++ sep :: b ++ y ++ z) with (k ++ [sep] ++ b ++ y ++ z). rewrite app_assoc.
      replace 7%nat with (length (k ++ [sep])) by (rewrite app_length, L6; reflexivity). apply skipn_length_app. }
    rewrite S7.
    assert (Sy : stops_at blank (y ++ z)).
    { destruct y as [|c y]; [discriminate|]. cbn in Ly |- *. injection Ly as Lc _. unfold blank. intros [-> | ->]; discriminate. }
    rewrite (longest_run_len ps_SPACE blank (b ++ y ++ z) b (y ++ z) ps_SPACE_spec) by (repeat split; assumption).
    rewrite skipn_length_app.
    assert (Q : startswith (lit "yupp") (lower (y ++ z)) = true) by (rewrite lower_app, Ly; apply startswith_app).
    rewrite Q. rewrite <- L4, skipn_length_app. reflexivity.
Qed.
Lemma coding_then_fun s z z' : coding_then s z -> coding_then s z' -> z = z'.
Proof. intros H H'. apply after_coding_spec in H, H'. congruence. Qed.

Lemma at_boundary_spec s : at_boundary s = true <-> word_ends is_word s.
Proof.
  destruct s as [|c r]; [cbn; tauto|]. cbn [at_boundary word_ends].
  destruct (c =? 10) eqn:E; [|cbn [andb]; rewrite orb_false_r, negb_true_iff; reflexivity].
  apply N.eqb_eq in E as ->. change (is_word 10) with false. cbn [negb orb]. tauto.
Qed.
Lemma enc_char_spec c : enc_char c = true <-> encoding_char c.
Proof.
  unfold enc_char, encoding_char. pose proof (ps_LETTER_spec c) as L. unfold decimal_digit, is_digit.
  destruct (ps_LETTER c); [|]; cbn [orb]; intuition (try congruence); lia.
Qed.
Lemma longest_boundary_some n s k : longest_boundary n s = Some k -> (0 < k <= n)%nat /\ at_boundary (skipn k s) = true.
Proof.
  induction n as [|n IH]; cbn [longest_boundary]; [discriminate|]. destruct (at_boundary (skipn (S n) s)) eqn:E.
  - intros [= <-]. split; [lia|exact E].
  - intros H. apply IH in H. split; [lia|tauto].
Qed.
Lemma longest_boundary_none n s : longest_boundary n s = None -> forall k, (0 < k <= n)%nat -> at_boundary (skipn k s) = false.
Proof.
  induction n as [|n IH]; cbn [longest_boundary]; intros H k K; [lia|]. destruct (at_boundary (skipn (S n) s)) eqn:E; [discriminate|].
  destruct (Nat.eq_dec k (S n)) as [->|]; [exact E|apply IH; [exact H|lia]].
Qed.
Definition group (r : text) : option nat :=
  match r with
  | c :: r' => if c =? 46 then longest_boundary (span_len enc_char r') r' else None
  | [] => None
  end.
Lemma coding_at_after s : coding_at s = match after_coding s with
  | Some r => match group r with Some _ => Some true | None => if at_boundary r then Some false else None end
  | None => None end.
Proof.
  unfold coding_at, after_coding. destruct (_ || _); [|reflexivity]. cbv zeta. destruct (startswith (lit "yupp") _); reflexivity.
Qed.
Lemma group_spec z : (exists k, group z = Some k) <-> exists enc z', z = 46 :: enc ++ z' /\ enc <> [] /\ Forall encoding_char enc /\ word_ends is_word z'.
Proof.
  split.
  - intros [k H]. destruct z as [|c r]; [discriminate|]. cbn [group] in H. destruct (c =? 46) eqn:E; [|discriminate]. apply N.eqb_eq in E as ->.
    apply longest_boundary_some in H as [K B]. apply at_boundary_spec in B. exists (firstn k r), (skipn k r).
    rewrite firstn_skipn. split; [reflexivity|]. split; [|split; [|exact B]].
    + pose proof (span_len_le enc_char r). apply firstn_pos. lia.
    + pose proof (longest_run_span enc_char encoding_char r enc_char_spec) as (_ & F & _).
      rewrite Forall_forall in *. intros x Hx. apply F. rewrite <- (firstn_skipn k (firstn (span_len enc_char r) r)).
      apply in_or_app. left. rewrite firstn_firstn, Nat.min_l by lia. exact Hx.
  - intros (enc & z' & -> & N & F & W). cbn [group]. cbv iota. change (46 =? 46) with true. cbv iota.
    destruct (longest_boundary (span_len enc_char (enc ++ z')) (enc ++ z')) as [k|] eqn:E; [eauto|]. exfalso.
    assert (L : (length enc <= span_len enc_char (enc ++ z'))%nat).
    { clear -F. induction enc as [|c enc IH]; [cbn; lia|]. inversion F; subst. cbn [app span_len length].
      replace (enc_char c) with true by (symmetry; apply enc_char_spec; assumption). specialize (IH H2). lia. }
    pose proof (longest_boundary_none _ _ E (length enc)) as B. rewrite skipn_length_app in B.
    assert (at_boundary z' = true) by (apply at_boundary_spec, W). destruct enc; [congruence|]. cbn [length] in *. specialize (B ltac:(lia)). congruence.
Qed.
Lemma coding_at_true s : coding_at s = Some true <-> with_encoding is_word s.
Proof.
  rewrite coding_at_after. unfold with_encoding. split.
  - destruct (after_coding s) as [r|] eqn:E; [|discriminate]. apply after_coding_spec in E.
    destruct (group r) as [k|] eqn:G; [|destruct (at_boundary r); discriminate]. intros _.
    destruct (proj1 (group_spec r) (ex_intro _ k G)) as (enc & z' & H). exists r, enc, z'. tauto.
  - intros (z & enc & z' & C & H). apply after_coding_spec in C. rewrite C.
    destruct (proj2 (group_spec z)) as [k ->]; [exists enc, z'; exact H|reflexivity].
Qed.
Lemma coding_at_false s : coding_at s = Some false <-> without_encoding is_word s.
Proof.
  unfold without_encoding. rewrite <- coding_at_true. split.
  - intros H. split; [congruence|]. rewrite coding_at_after in H.
    destruct (after_coding s) as [r|] eqn:E; [|discriminate]. apply after_coding_spec in E.
    destruct (group r); [discriminate|]. destruct (at_boundary r) eqn:B; [|discriminate]. exists r. split; [exact E|apply at_boundary_spec, B].
  - intros [N (z & C & W)]. rewrite coding_at_after in *. apply after_coding_spec in C. rewrite C in *.
    destruct (group z); [congruence|]. apply at_boundary_spec in W. rewrite W. reflexivity.
Qed.
Lemma coding_at_none s : coding_at s = None <-> ~ names_yupp is_word s.
Proof.
  unfold names_yupp. rewrite <- coding_at_true, <- coding_at_false. destruct (coding_at s) as [[]|]; split; try congruence; try tauto.
  intros _ [|]; discriminate.
Qed.
Lemma coding_search_none c : coding_search c = None <-> not_magic is_word c.
Proof.
  induction c as [|x c IH]; cbn [coding_search].
  - split.
    + intros H a r E. destruct a, r; try discriminate. apply coding_at_none. reflexivity.
    + reflexivity.
  - destruct (coding_at (x :: c)) as [b|] eqn:E.
    + split; [discriminate|]. intros H. specialize (H [] (x :: c) eq_refl). apply coding_at_none in H. congruence.
    + rewrite IH. apply coding_at_none in E. split.
      * intros H [|y a] r Er; [cbn in Er; subst r; exact E|]. injection Er as <- ->. eapply H. reflexivity.
      * intros H a r ->. apply (H (x :: a) r). reflexivity.
Qed.
Definition kind (b : bool) : text -> Prop := if b then with_encoding is_word else without_encoding is_word.
Lemma coding_at_some s b : coding_at s = Some b <-> kind b s.
Proof. destruct b; [apply coding_at_true|apply coding_at_false]. Qed.
Lemma coding_search_some c b : coding_search c = Some b <-> magic is_word (kind b) c.
Proof.
  unfold magic. induction c as [|x c IH]; cbn [coding_search].
  - split; [discriminate|]. intros (a & r & E & K & _). destruct a, r; try discriminate. apply coding_at_some in K. discriminate.
  - destruct (coding_at (x :: c)) as [b'|] eqn:E.
    + split.
      * intros [= ->]. apply coding_at_some in E. exists [], (x :: c). split; [reflexivity|]. split; [exact E|]. cbn. lia.
      * intros (a & r & Er & K & F). destruct a as [|y a].
        -- cbn in Er. subst r. apply coding_at_some in K. congruence.
        -- exfalso. apply (F [] (x :: c) eq_refl); [cbn; lia|]. destruct (coding_at (x :: c)) as [[]|] eqn:D; [left; apply coding_at_true, D|right; apply coding_at_false, D|discriminate].
    + rewrite IH. apply coding_at_none in E. split.
      * intros (a & r & -> & K & F). exists (x :: a), r. split; [reflexivity|]. split; [exact K|].
        intros [|y a'] r' Er L; [cbn in Er; subst r'; exact E|]. injection Er as <- Er. apply (F a' r' Er). cbn in L. lia.
      * intros (a & r & Er & K & F). destruct a as [|y a].
        -- cbn in Er. subst r. apply coding_at_some in K. apply coding_at_none in E. congruence.
        -- injection Er as <- ->. exists a, r. split; [reflexivity|]. split; [exact K|].
           intros a' r' Er' L. apply (F (x :: a') r'); [rewrite Er'; reflexivity|cbn; lia].
Qed.

(** ** The header *)
Lemma source_eq t f p q : p = q -> Src t f p = Src t f q. Proof. intros ->. reflexivity. Qed.
Lemma comment_line_read c rest f p : comment_line c rest ->
  ps_remark_python (Src (c ++ rest) f p) = (Src rest f (p + Z.of_nat (length c)), Some (Src c f p)).
Proof.
  intros [(body & -> & F) R]. cbn [app]. rewrite remark_python; [reflexivity|exact F|].
  destruct rest as [|x r]; [left; reflexivity|right; eauto].
Qed.
Lemma comment_hash c rest : comment_line c rest -> exists b, c = 35 :: b.
Proof. intros [(b & -> & _) _]. eauto. Qed.
Lemma not_blank_hash c rest r : comment_line c rest -> stops_at blank (c ++ r).
Proof. intros H. destruct (comment_hash c rest H) as [b ->]. cbn. unfold blank. lia. Qed.
Lemma space_read sp r f p : Forall blank sp -> stops_at blank r ->
  fst (ps_space (Src (sp ++ r) f p)) = Src r f (p + Z.of_nat (length sp)).
Proof. intros. rewrite ps_space_run by assumption. reflexivity. Qed.

Lemma kept_read c kept f p : kept_of is_word c kept ->
  exists b, coding_search c = Some b /\ spells (if b then header_encoding (Src c f p) else []) kept.
Proof.
  intros [c0 M|a b M F].
  - exists false. split; [apply coding_search_some, M|constructor].
  - exists true. split; [apply coding_search_some, M|].
    unfold header_encoding. cbn [s_txt s_file s_pos].
    assert (E : find_sub (lit "yupp.") (a ++ lit "yupp." ++ b) = Some (length a)).
    { destruct (find_sub (lit "yupp.") (a ++ lit "yupp." ++ b)) as [i|] eqn:E.
      - apply find_sub_some in E as (Li & E & Fi). f_equal.
        pose proof (F _ _ E) as L. rewrite firstn_length in L.
        destruct (Nat.lt_ge_cases (length a) i) as [Hl|Hl]; [|lia].
        specialize (Fi (length a) Hl). rewrite skipn_length_app, startswith_app in Fi. discriminate.
      - pose proof (find_sub_none _ _ E (length a)) as X. rewrite skipn_length_app, startswith_app in X. discriminate. }
    rewrite E. unfold py_to, py_from, norm_index.
    destruct (Z.ltb_spec (Z.of_nat (length a)) 0) as [X|_]; [lia|].
    destruct (Z.ltb_spec (Z.of_nat (length a) + 5) 0) as [X|_]; [lia|].
    assert (L : length (a ++ lit "yupp." ++ b) = (length a + 5 + length b)%nat).
    { rewrite !app_length. change (length (lit "yupp.")) with 5%nat. lia. }
    rewrite !Nat.min_l by lia. rewrite Nat2Z.id, firstn_length_app.
    replace (Z.to_nat (Z.of_nat (length a) + 5)) with (length (a ++ lit "yupp.")) by (rewrite app_length; change (length (lit "yupp.")) with 5%nat; lia).
    rewrite app_assoc, skipn_length_app. constructor; [constructor|]. apply spells_one. constructor.
Qed.

Lemma eol_read e r f p : line_end e -> ps_eol (Src (e :: r) f p) = (Src r f (p + 1), Some (Src [e] f p)).
Proof. intros H. apply ps_EOL_spec in H. unfold ps_eol. cbn [s_txt]. rewrite H. reflexivity. Qed.
Lemma eol_none r f p : stops_at line_end r -> ps_eol (Src r f p) = (Src r f p, None).
Proof.
  intros H. unfold ps_eol. cbn [s_txt]. destruct r as [|c r]; [reflexivity|]. cbn in H. rewrite <- ps_EOL_spec in H.
  destruct (ps_EOL c); [congruence|reflexivity].
Qed.
Lemma magic_step ln h sp c rest kept f p : Forall blank sp -> comment_line c rest -> kept_of is_word c kept ->
  exists hd, header_loop (S ln) h (Src (sp ++ c ++ rest) f p) = Some (Src rest f (p + Z.of_nat (length sp) + Z.of_nat (length c)), h ++ hd, (3 - S ln)%nat)
             /\ spells hd kept.
Proof.
  intros B C K. cbn [header_loop]. cbv zeta. rewrite space_read by (try assumption; eapply not_blank_hash; exact C).
  rewrite (comment_line_read c rest _ _ C). cbn [s_txt].
  destruct (kept_read c kept f (p + Z.of_nat (length sp)) K) as (b & -> & S). destruct b.
  - eexists. split; [reflexivity|exact S].
  - exists []. rewrite app_nil_r. split; [reflexivity|exact S].
Qed.
Lemma shebang_step ln h sb e r f p : comment_line sb (e :: r) -> not_magic is_word sb -> line_end e ->
  header_loop (S ln) h (Src (sb ++ e :: r) f p) =
  header_loop ln (h ++ [NRemark (Src sb f p); NSource (Src [e] f (p + Z.of_nat (length sb)))]) (Src r f (p + Z.of_nat (length sb) + 1)).
Proof.
  intros C N E. cbn [header_loop]. cbv zeta.
  assert (Es : fst (ps_space (Src (sb ++ e :: r) f p)) = Src (sb ++ e :: r) f p).
  { pose proof (space_read [] (sb ++ e :: r) f p ltac:(constructor) (not_blank_hash _ _ _ C)) as X. cbn [app length] in X. rewrite X. apply source_eq. lia. }
  rewrite Es, (comment_line_read sb _ _ _ C). cbn [s_txt]. apply coding_search_none in N. rewrite N.
  rewrite (eol_read e) by exact E. reflexivity.
Qed.
Lemma header_read t kept rest n key s : header is_word t kept rest n ->
  exists hd, ps_header_python (Src t (Some key) 0) s =
    Ok (Src rest (Some key) (Z.of_nat (length t - length rest)), Some hd, set_shrink n s) /\ spells hd kept.
Proof.
  intros H. unfold ps_header_python. destruct H as [sp c rest kept B C K|sp e sp' c rest kept B E B' C K|sp sb e sp' c rest kept B Cs Ns E B' C K].
  - rewrite (space_read sp) by (try assumption; eapply not_blank_hash; exact C).
    rewrite eol_none by (destruct (comment_hash _ _ C) as [b ->]; cbn; unfold line_end; lia). cbv beta iota.
    destruct (magic_step 1 [] [] c rest kept (Some key) (0 + Z.of_nat (length sp)) ltac:(constructor) C K) as (hd & Eh & S).
    cbn [app] in Eh. rewrite Eh. exists hd. split; [|exact S]. unfold bind, modify, ret. do 3 f_equal. apply source_eq.
    rewrite !app_length. cbn [length]. lia.
  - rewrite (space_read sp (e :: sp' ++ c ++ rest)) by (try assumption; cbn; unfold blank, line_end in *; lia).
    rewrite (eol_read e) by exact E. cbv beta iota.
    destruct (magic_step 0 [] sp' c rest kept (Some key) (0 + Z.of_nat (length sp) + 1) B' C K) as (hd & Eh & S).
    rewrite Eh. exists hd. split; [|exact S]. unfold bind, modify, ret. do 3 f_equal. apply source_eq.
    rewrite !app_length. cbn [length]. rewrite !app_length. lia.
  - rewrite (space_read sp) by (try assumption; eapply not_blank_hash; exact Cs).
    rewrite eol_none by (destruct (comment_hash _ _ Cs) as [b ->]; cbn; unfold line_end; lia). cbv beta iota.
    rewrite (shebang_step 1 [] sb e _ _ _ Cs Ns E).
    match goal with |- context [header_loop 1 ?h (Src (sp' ++ c ++ rest) (Some key) ?q)] =>
      destruct (magic_step 0 h sp' c rest kept (Some key) q B' C K) as (hd & Eh & S) end.
    rewrite Eh. eexists. split.
    + unfold bind, modify, ret. do 3 f_equal. apply source_eq.
      rewrite !app_length. cbn [length]. rewrite !app_length. lia.
    + cbn [app]. constructor; [constructor|]. change (e :: kept) with ([e] ++ kept). constructor; [constructor|exact S].
Qed.

(** ** No magic comment *)
Definition breaks (x : text) : nat := length (filter (fun e : char => ((e =? 10) || (e =? 13))) x).
Lemma breaks_app x y : breaks (x ++ y) = (breaks x + breaks y)%nat.
Proof. unfold breaks. rewrite filter_app, app_length. reflexivity. Qed.
Lemma breaks_none x : Forall (fun c => ~ line_end c) x -> breaks x = O.
Proof.
  unfold breaks. induction 1 as [|c x H F IH]; [reflexivity|]. cbn [filter].
  replace ((c =? 10) || (c =? 13)) with false by (unfold line_end in H; lia). exact IH.
Qed.
Lemma breaks_blank x : Forall blank x -> breaks x = O.
Proof. intros F. apply breaks_none. eapply Forall_impl; [|exact F]. intros c. unfold blank, line_end. lia. Qed.
Lemma breaks_end e : line_end e -> breaks [e] = 1%nat.
Proof. intros [-> | ->]; reflexivity. Qed.

Lemma no_header_loop t f : no_magic is_word t -> forall ln h x r p, t = x ++ r -> (breaks x + ln <= 2)%nat ->
  header_loop ln h (Src r f p) = None.
Proof.
  intros N. induction ln as [|ln IH]; intros h x r p E L; [reflexivity|]. cbn [header_loop]. cbv zeta.
  pose proof (longest_run_span ps_SPACE blank r ps_SPACE_spec) as (Sp & Fb & Sb).
  set (sp := firstn (span_len ps_SPACE r) r) in *. set (r1 := skipn (span_len ps_SPACE r) r) in *. clearbody sp r1.
  rewrite Sp. rewrite space_read by assumption.
  destruct r1 as [|c r1]; [reflexivity|]. destruct (c =? ch_hash) eqn:Ec; [|unfold ps_remark_python, sis; cbn [s_txt]; rewrite Ec; reflexivity].
  apply N.eqb_eq in Ec. unfold ch_hash in Ec. subst c.
  set (n := span_len (fun c => negb (ps_EOL c)) r1).
  assert (Cl : comment_line (firstn (1 + n) (35 :: r1)) (skipn (1 + n) (35 :: r1))).
  { pose proof (longest_run_span (fun c => negb (ps_EOL c)) (fun c => ~ line_end c) r1) as K.
    assert (K0 : forall c, negb (ps_EOL c) = true <-> ~ line_end c).
    { intros c. rewrite negb_true_iff, <- ps_EOL_spec. destruct (ps_EOL c); intuition congruence. }
    destruct (K K0) as (_ & F & S). fold n in F, S. split.
    - exists (firstn n r1). split; [reflexivity|exact F].
    - cbn [Nat.add skipn]. destruct (skipn n r1) as [|c r2]; [exact I|]. cbn in S. rewrite <- ps_EOL_spec in *. destruct (ps_EOL c); [reflexivity|].
      exfalso. apply S. discriminate. }
  set (c := firstn (1 + n) (35 :: r1)) in *. set (rest := skipn (1 + n) (35 :: r1)) in *.
  assert (Er : 35 :: r1 = c ++ rest) by (symmetry; apply firstn_skipn).
  clearbody c rest. rewrite Er, (comment_line_read c rest _ _ Cl). cbn [s_txt].
  assert (Bx : breaks (x ++ sp) = breaks x) by (rewrite breaks_app, (breaks_blank sp Fb); lia).
  assert (Nm : coding_search c = None).
  { apply coding_search_none. apply (N (x ++ sp) c rest); [rewrite E, Sp, Er, <- app_assoc; reflexivity| |exact Cl].
    fold (breaks (x ++ sp)). lia. }
  rewrite Nm.
  assert (Bc : breaks c = O). { destruct Cl as [(body & -> & F) _]. change (35 :: body) with ([35] ++ body). rewrite breaks_app, (breaks_none body F). reflexivity. }
  destruct rest as [|e rest'].
  - rewrite eol_none by exact I. apply IH with (x := x ++ sp ++ c).
    + rewrite E, Sp, Er, !app_nil_r. reflexivity.
    + rewrite app_assoc, breaks_app, Bx, Bc. lia.
  - destruct Cl as [_ Le]. rewrite (eol_read e) by exact Le. apply IH with (x := x ++ sp ++ c ++ [e]).
    + rewrite E, Sp, Er, <- !app_assoc. reflexivity.
    + rewrite app_assoc, !breaks_app, (breaks_blank sp Fb), Bc, (breaks_end e Le). lia.
Qed.
Lemma no_magic_header t key s : no_magic is_word t -> ps_header_python (Src t (Some key) 0) s = Ok (Src t (Some key) 0, None, s).
Proof.
  intros N. unfold ps_header_python.
  pose proof (longest_run_span ps_SPACE blank t ps_SPACE_spec) as (Sp & Fb & Sb).
  set (sp := firstn (span_len ps_SPACE t) t) in *. set (r1 := skipn (span_len ps_SPACE t) t) in *. clearbody sp r1.
  assert (Es : fst (ps_space (Src t (Some key) 0)) = Src r1 (Some key) (0 + Z.of_nat (length sp))).
  { replace t with (sp ++ r1) by (symmetry; exact Sp). apply space_read; assumption. }
  rewrite Es. clear Es.
  assert (K : exists q eol r2 x, ps_eol (Src r1 (Some key) (0 + Z.of_nat (length sp))) = (Src r2 (Some key) q, eol) /\ t = x ++ r2 /\
     (breaks x + match eol with Some _ => 1 | None => 2 end <= 2)%nat).
  { destruct r1 as [|e r2].
    - eexists _, None, [], sp. split; [reflexivity|]. split; [exact Sp|]. rewrite (breaks_blank sp Fb). lia.
    - destruct (ps_EOL e) eqn:Ee.
      + apply ps_EOL_spec in Ee. eexists _, (Some _), r2, (sp ++ [e]). split; [apply (eol_read e), Ee|].
        split; [rewrite <- app_assoc; exact Sp|]. rewrite breaks_app, (breaks_blank sp Fb), (breaks_end e Ee). lia.
      + eexists _, None, (e :: r2), sp. split; [apply eol_none; cbn; rewrite <- ps_EOL_spec; congruence|].
        split; [exact Sp|]. rewrite (breaks_blank sp Fb). lia. }
  destruct K as (q & eol & r2 & x & -> & Et & L). rewrite (no_header_loop t (Some key) N _ [] x r2 q Et L). reflexivity.
Qed.

(** ** Parsing a Python source *)
Lemma parse_with_header cx d s decl t kept rest n : c_python cx = true -> header is_word t kept rest n -> rest <> [] ->
  dict_get (c_main cx) (y_source s) = Some (decl, t) ->
  exists hd, spells hd kept /\
    yuparse cx (S d) (c_main cx) s =
    bind (text_tree cx d (Src rest (Some (c_main cx)) (Z.of_nat (length t - length rest))))
         (fun l => ret (match l with [] => [] | _ => hd ++ l end)) (set_shrink n s).
Proof.
  intros P H R D. destruct (header_read t kept rest n (c_main cx) s H) as (hd & E & S). exists hd. split; [exact S|].
  assert (Nt : t <> []). { destruct H; intros Z0; apply (f_equal (@length BinNums.N)) in Z0; rewrite !app_length in Z0; cbn in Z0; rewrite ?app_length in Z0; destruct rest; cbn in Z0; try congruence; lia. }
  cbn [yuparse]. unfold yuparse_with. unfold bind at 1, get_st. rewrite D. destruct t as [|c t]; [congruence|].
  rewrite teqb_refl, P. cbn [andb]. unfold bind at 1. rewrite E. cbn [s_txt]. destruct rest as [|c0 rest]; [congruence|].
  unfold text_tree. unfold bind. cbn [s_txt]. destruct (drive_text _ _ _ _) as [[[r g] s']|e|]; try reflexivity.
Qed.
Lemma parse_header_text cx d s decl t kept rest n : c_python cx = true -> header is_word t kept rest n -> rest <> [] -> plain_text rest ->
  dict_get (c_main cx) (y_source s) = Some (decl, t) ->
  match yuparse cx (S d) (c_main cx) s with
  | Ok (l, s') => s' = set_shrink n s /\ spells l (kept ++ rest)
  | Err _ => may_fail cx rest
  | Fuel => False
  end.
Proof.
  intros P H R T D. destruct (parse_with_header cx d s decl t kept rest n P H R D) as (hd & S & ->).
  unfold text_tree, bind. set (sou := Src rest _ _).
  pose proof (whole_plain cx (yuparse cx d) rest sou (set_shrink n s) T eq_refl) as W. cbn [sou s_txt] in *. fold sou in W |- *.
  destruct (drive_text _ _ _ _) as [[[r g] s']|e|]; [|exact W|exact W]. destruct W as [-> W]. cbn. split; [reflexivity|].
  destruct (tg_ast g) eqn:E.
  - inversion W as [Z0|]. congruence.
  - apply spells_app; assumption.
Qed.
Lemma parse_only_header cx d s decl t kept n : c_python cx = true -> header is_word t kept [] n ->
  dict_get (c_main cx) (y_source s) = Some (decl, t) ->
  exists e, yuparse cx (S d) (c_main cx) s = Err e.
Proof.
  intros P H D. destruct (header_read t kept [] n (c_main cx) s H) as (hd & E & S).
  assert (Nt : t <> []).
  { intros ->. unfold ps_header_python in E. discriminate E. }
  cbn [yuparse]. unfold yuparse_with. unfold bind at 1, get_st. rewrite D. destruct t as [|c t]; [congruence|].
  rewrite teqb_refl, P. cbn [andb]. unfold bind at 1. rewrite E. cbn [s_txt]. eexists. reflexivity.
Qed.
