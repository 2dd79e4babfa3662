(** Indentation and browsing: wrappers and concrete cases (proofs only). *)
From Coq Require Import List NArith ZArith Bool String Lia ZifyBool ZifyNat ZifyN.
From Verif Require Import PyStr Ast Lex Parse Final Eval Browse PyStrFacts FinalSpec FinalFacts TrimSpec TrimFacts TrimFacts2 OffsetSpec BrowseSpec OffsetFacts OffsetFacts2 OffsetFacts3 OffsetFacts4 OffsetFacts5.
Import ListNotations.
Open Scope list_scope.
Open Scope N_scope.

(** ** C29 *)
Definition margin_text : text := join [10] [lit "    a"; []; lit "      b"; lit "    c"].
Lemma margin_case : follows (lit "  ") margin_text (lit "a" ++ 10 :: lit "  " ++ 10 :: lit "    b" ++ 10 :: lit "  c").
Proof.
  exists [lit "    a"; []; lit "      b"; lit "    c"], (lit "    "), [lit "a"; []; lit "  b"; lit "c"].
  assert (Hb : forall l, blank l -> is_blank l = true) by (intros; apply is_blank_spec; assumption).
  assert (Hn : forall a b, is_blank (a ++ b) = false -> ~ blank (a ++ b)) by (intros; apply is_blank_false; assumption).
  split; [discriminate|]. split; [reflexivity|]. split; [repeat constructor|]. split; [|split].
  - split; [repeat (constructor; [left; reflexivity|]); constructor|]. split.
    + intros l [<-|[<-|[<-|[<-|[]]]]] H; [exists (lit "a")|elim H; constructor|exists (lit "  b")|exists (lit "c")]; reflexivity.
    + intros c' Hc H _. destruct (H (lit "    a")) as [b E]; [left; reflexivity|apply is_blank_false; reflexivity|].
      pose proof (prefix_leading c' (lit "    a") Hc (ex_intro _ b E)) as [d Hd]. exists d. exact Hd.
  - constructor; [apply (cut_line (lit "    ") (lit "a")); apply is_blank_false; reflexivity|].
    constructor; [apply cut_blank; constructor|].
    constructor; [apply (cut_line (lit "    ") (lit "  b")); apply is_blank_false; reflexivity|].
    constructor; [apply (cut_line (lit "    ") (lit "c")); apply is_blank_false; reflexivity|]. constructor.
  - apply (laid_more (lit "  ") (lit "a") _ (10 :: lit "    b" ++ 10 :: lit "  c")); [discriminate|].
    apply (laid_more (lit "  ") [] _ (lit "  b" ++ 10 :: lit "  c")); [discriminate|].
    apply (laid_more (lit "  ") (lit "  b") _ (lit "c")); [discriminate|]. constructor.
Qed.
Lemma form_feed_case : trim true (lit "  ") (lit "a" ++ 12 :: lit "b") = lit "a" ++ 12 :: lit "  b".
Proof. reflexivity. Qed.
Lemma trim_off ind u : trim false ind u = u.
Proof. destruct u; reflexivity. Qed.

(** ** C30 *)
Lemma browse_same_trim ind lines b o : full_lines lines -> Forall no_break lines -> even_indentation lines ->
  r_txt (trim_with_browse true ind (Res (join [10] lines) b o)) = trim true ind (join [10] lines).
Proof.
  intros Hf Hn He. destruct (follows_exists ind lines) as [w Hw]; [destruct Hf; discriminate|exact Hn|].
  rewrite (trim_follows _ _ _ Hw). apply trim_browse_follows; assumption.
Qed.
Lemma browse_same_trim_off ind r : r_txt (trim_with_browse false ind r) = trim false ind (r_txt r).
Proof. rewrite trim_off. unfold trim_with_browse. destruct (r_txt r) eqn:E; [exact E|exact E]. Qed.
Lemma keep_unlines ls : Forall no_break ls -> splitlines_keep (unlines ls) = map (fun l => l ++ [10]) ls.
Proof.
  induction 1 as [|l ls Hl _ IH]; [reflexivity|]. change (unlines (l :: ls)) with ((l ++ [10]) ++ unlines ls).
  rewrite <- app_assoc. cbn [app map]. rewrite keep_line, IH by exact Hl. reflexivity.
Qed.
Lemma tidy_is_blank l : tidy l -> is_blank l = ln_blank l.
Proof.
  intros Ht. destruct (ln_blank l) eqn:E.
  - rewrite (tidy_blank l Ht E). reflexivity.
  - apply is_blank_false. intros Hb. assert (ln_blank l = true); [|congruence]. apply ln_blank_spec.
    eapply Forall_impl; [|exact Hb]. intros c [->| ->]; reflexivity.
Qed.
Lemma reduce_lines_tidy ls : Forall tidy ls -> forall prev,
  reduce_lines prev (map (fun l => l ++ [10]) ls) = map (fun l => l ++ [10]) (map rstrip (filter_empty prev ls)).
Proof.
  induction 1 as [|l ls Hl _ IH]; intros prev; [reflexivity|]. cbn [map reduce_lines filter_empty].
  rewrite line_empty_lf by apply Hl. rewrite (tidy_is_blank l Hl). destruct (ln_blank l) eqn:E, prev; cbn [negb orb]; rewrite IH; try reflexivity;
    cbn [map]; rewrite tidy_rstrip by exact Hl; reflexivity.
Qed.
Lemma browse_same_reduce ls b o : ls <> [] -> Forall tidy ls ->
  r_txt (reduce_emptiness_browse true (Res (unlines ls) b o)) = reduce_emptiness true (unlines ls).
Proof.
  intros Hne Ht. assert (Hnb : Forall no_break ls) by (eapply Forall_impl; [|exact Ht]; intros l Hl; apply Hl).
  unfold reduce_emptiness_browse, reduce_emptiness. cbn [negb r_txt].
  rewrite (lines_splitlines _ _ (unlines_lines ls Hnb)), (keep_unlines ls Hnb), (reduce_lines_tidy ls Ht).
  rewrite join_unlines; [reflexivity|]. destruct ls as [|l ls]; [contradiction|]. cbn [filter_empty negb orb]. discriminate.
Qed.
Lemma browse_blank_line_case :
  r_txt (trim_with_browse true (lit "  ") (res_of (lit "a" ++ [10; 10] ++ lit "b"))) = lit "a" ++ [10; 10] ++ lit "  b" /\
  trim true (lit "  ") (lit "a" ++ [10; 10] ++ lit "b") = lit "a" ++ 10 :: lit "  " ++ 10 :: lit "  b".
Proof. split; reflexivity. Qed.
Lemma browse_mixed_case :
  r_txt (trim_with_browse true [] (res_of (32 :: 9 :: lit "a" ++ 10 :: lit "  b"))) = 32 :: 9 :: lit "a" ++ 10 :: lit "  b" /\
  trim true [] (32 :: 9 :: lit "a" ++ 10 :: lit "  b") = 9 :: lit "a" ++ 10 :: lit " b".
Proof. split; reflexivity. Qed.
Lemma browse_reduce_case :
  r_txt (reduce_emptiness_browse true (res_of (lit "a "))) = lit "a " /\ reduce_emptiness true (lit "a ") = lit "a" ++ [10].
Proof. split; reflexivity. Qed.
Lemma even_case : even_indentation [lit "    a"; lit "      b"; []].
Proof.
  assert (U : forall l i i', indented_by i l -> indented_by i' l -> i = i').
  { intros l i i' (B1 & c & b & -> & N1 & N2) (B2 & c' & b' & E & N1' & N2'). clear -B1 B2 N1 N2 N1' N2' E. revert i' B2 E.
    induction B1 as [|x i Hx _ IH]; intros [|y i'] B2 E; try reflexivity; inversion B2; subst; cbn [app] in E; injection E as E1 E2; try lia.
    subst. f_equal. apply (IH i'); assumption. }
  assert (I1 : indented_by (lit "    ") (lit "    a")) by (split; [repeat (constructor; [left; reflexivity|]); constructor|exists 97, []; repeat split; discriminate]).
  assert (I2 : indented_by (lit "      ") (lit "      b")) by (split; [repeat (constructor; [left; reflexivity|]); constructor|exists 98, []; repeat split; discriminate]).
  intros l l' i i' [<-|[<-|[<-|[]]]] [<-|[<-|[<-|[]]]] H H';
    try (destruct H as (_ & c & b & E & _); destruct i; discriminate E); try (destruct H' as (_ & c & b & E & _); destruct i'; discriminate E);
    try rewrite <- (U _ _ _ I1 H); try rewrite <- (U _ _ _ I2 H); try rewrite <- (U _ _ _ I1 H'); try rewrite <- (U _ _ _ I2 H').
  - left. apply prefix_refl.
  - left. exists (lit "  "). reflexivity.
  - right. exists (lit "  "). reflexivity.
  - left. apply prefix_refl.
Qed.
Lemma full_case : full_lines [lit "    a"; lit "      b"; []].
Proof. apply FL_more; [apply is_blank_false; reflexivity|]. apply FL_end. apply is_blank_false; reflexivity. Qed.
Lemma tidy_case : Forall tidy [lit "a"; []; []; lit "b"].
Proof.
  constructor; [split; [repeat constructor|right; exists [], 97; split; reflexivity]|].
  constructor; [split; [constructor|left; reflexivity]|]. constructor; [split; [constructor|left; reflexivity]|].
  constructor; [split; [repeat constructor|right; exists [], 98; split; reflexivity]|]. constructor.
Qed.

(** ** C31 *)
Lemma bind_ok {A B} (m : M A) (k : A -> M B) s v s' : bind m k s = Ok (v, s') -> exists a s1, m s = Ok (a, s1) /\ k a s1 = Ok (v, s').
Proof. unfold bind. destruct (m s) as [[a s1]|x|]; [eauto|discriminate|discriminate]. Qed.
Lemma source_built so st r st' : source_result so st = Ok (r, st') -> exists ps, built r ps.
Proof.
  unfold source_result. destruct (s_txt so) as [|c t]; [intros [= <- _]; exists [([], [])]; constructor|].
  destruct (s_file so) as [[|d f]|]; try (intros [= <- _]; eexists; constructor).
  intros H. apply bind_ok in H as (a & s1 & _ & H). apply bind_ok in H as (b & s2 & _ & H). injection H as <- _. eexists. constructor.
Qed.
Lemma concat_built rs : Forall (fun r => exists ps, built r ps) rs -> exists ps, built (concat_results rs) ps.
Proof.
  intros H. destruct H as [|r rs [p Hp] H]; [exists [([], [])]; constructor|]. unfold concat_results. revert r p Hp.
  induction H as [|r2 rs [p2 Hp2] _ IH]; intros r p Hp; [eauto|]. cbn [fold_left].
  destruct (r_txt r2) as [|x t] eqn:E.
  - eapply IH. eapply built_skip; eassumption.
  - eapply IH. eapply built_add; [eassumption|eassumption|]. rewrite E. discriminate.
Qed.
Lemma plain_built ec : forall x st r st', browsable x -> plain_with_browse ec x st = Ok (r, st') -> exists ps, built r ps.
Proof.
  fix IH 1. intros x st r st' Hx H.
  assert (HL : forall l, (forall st r st', (fix all (l : list node) : Prop := match l with [] => True | y :: r => browsable y /\ all r end) l ->
     (fix go (l : list node) : M (list result) :=
               match l with
               | [] => ret []
               | y :: l' => bind (plain_with_browse ec y) (fun r =>
                            bind (go l') (fun rs => ret (r :: rs)))
               end) l st = Ok (r, st') -> Forall (fun r => exists ps, built r ps) r)).
  { induction l as [|y l IHl]; intros st0 r0 st0' Hl H0; [injection H0 as <- _; constructor|]. destruct Hl as [Hy Hl].
    apply bind_ok in H0 as (r1 & s1 & E1 & H0). apply bind_ok in H0 as (rs & s2 & E2 & H0). injection H0 as <- _.
    constructor; [eapply IH; [exact Hy|exact E1]|]. eapply IHl; eassumption. }
  destruct x; cbn [plain_with_browse] in H; cbn [browsable] in Hx;
    try (injection H as <- _; eexists; constructor); try (eapply source_built, H); try (eapply IH; [exact Hx|exact H]).
  all: cycle -1.
  all: try (apply bind_ok in H as (rs & s1 & E1 & H); injection H as <- _; apply concat_built; eapply HL; eassumption).
  all: try (destruct Hx as [Hx Hi]; apply bind_ok in H as (r1 & s1 & E1 & H); injection H as <- _; destruct (IH _ _ _ _ Hx E1) as [ps Hps]; exists ps; apply built_trim; assumption).
  all: try (injection H as <- _; exact Hx).
Qed.

Definition two_pieces : list OffsetSpec.piece := [(lit "x = ", [(0, 0%nat, 11)%Z]); (lit "  a" ++ 10 :: lit "  b", [(0, 1%nat, 40)%Z])].
Definition two_result : result :=
  add_text (Res (lit "x = ") [(0, 0%nat, 11)%Z] []) (trim_with_browse true (lit "    ") (Res (lit "  a" ++ 10 :: lit "  b") [(0, 1%nat, 40)%Z] [])).
Lemma two_built : built two_result two_pieces.
Proof.
  apply (built_add _ [(lit "x = ", [(0, 0%nat, 11)%Z])] _ [(lit "  a" ++ 10 :: lit "  b", [(0, 1%nat, 40)%Z])]); [constructor| |discriminate].
  apply built_trim; [constructor|]. repeat (constructor; [left; reflexivity|]). constructor.
Qed.
Lemma two_text : r_txt two_result = lit "x = a" ++ 10 :: lit "    b".
Proof. reflexivity. Qed.
(** the character b is at 10 in the output and at 6 of the second piece *)
Lemma two_jump : jumps (r_browse two_result) (r_offset two_result) 10 = [(1%nat, 46%Z)].
Proof. reflexivity. Qed.
Lemma two_proper : Forall proper two_pieces.
Proof. constructor; [|constructor; [|constructor]]; (split; [cbn; lia|exact I]). Qed.
Lemma chain_case : exists r, built r [(lit "ab", [(0%Z, 0%nat, 3%Z)]); (lit "cd", map (fun m => (0%Z, fst m, snd m)) [(0%nat, 7%Z); (1%nat, (-40)%Z)])] /\
  jumps (r_browse r) (r_offset r) 3 = [(0%nat, 7%Z); (1%nat, 40%Z)].
Proof.
  exists (add_text (Res (lit "ab") [(0, 0%nat, 3)%Z] []) (Res (lit "cd") [(0, 0%nat, 7)%Z; (0, 1%nat, -40)%Z] [])). split; [|reflexivity].
  apply (built_add _ [(lit "ab", [(0, 0%nat, 3)%Z])] _ [(lit "cd", [(0, 0%nat, 7)%Z; (0, 1%nat, -40)%Z])]); [constructor|constructor|discriminate].
Qed.
Lemma first_piece_jump t f q k : (k < List.length t)%nat -> (0 < q)%Z ->
  built (Res t [(0%Z, f, q)] []) [(t, [(0%Z, f, q)])] /\ jumps [(0%Z, f, q)] [] (Z.of_nat k) = [(f, q)].
Proof.
  intros Hk Hq. split; [constructor|]. unfold jumps, delta_at. cbn [bisect map]. 
  replace (bisect [] (Z.of_nat k)) with 0%nat by (symmetry; apply (bisect_count [] 0 _ I)).
  rewrite Z.add_0_r. rewrite (bisect_count _ 0) by (cbn; lia). cbn [map count mark_pos fst].
  replace (0 <=? Z.of_nat k)%Z with true by lia. cbn. rewrite Z.abs_eq by lia. reflexivity.
Qed.
Lemma first_piece_case : ~ (forall r t f q ps2, built r ((t, [(0%Z, f, q)]) :: ps2) -> Forall proper ps2 -> (0 < q)%Z ->
  exists rel, aligns rel (raw_text ((t, [(0%Z, f, q)]) :: ps2)) (r_txt r) /\
    forall k b, (k < List.length t)%nat -> rel k b -> jumps (r_browse r) (r_offset r) (Z.of_nat b) = [(f, (q + Z.of_nat k)%Z)]).
Proof.
  intros H. destruct (H _ (lit "ab") 0%nat 5%Z [] (built_piece _ _) (Forall_nil _)) as (rel & A & J); [lia|].
  destruct (al_kept _ _ _ A 1%nat 98 eq_refl) as [b Hb]; [intros [E|[E|E]]; discriminate E|].
  specialize (J 1%nat b (ltac:(cbn; lia)) Hb). destruct (al_same _ _ _ A _ _ Hb) as (c & _ & E).
  destruct b as [|[|b]]; [discriminate J|discriminate J|destruct b; discriminate E].
Qed.
Lemma browsable_case ec st : exists r st', plain_with_browse ec (NList [NResult (lit "x = ") [(0, 0%nat, 11)%Z] [];
    NTrim (NResult (lit "  a" ++ 10 :: lit "  b") [(0, 1%nat, 40)%Z] []) (lit "    ")]) st = Ok (r, st') /\
  browsable (NList [NResult (lit "x = ") [(0, 0%nat, 11)%Z] []; NTrim (NResult (lit "  a" ++ 10 :: lit "  b") [(0, 1%nat, 40)%Z] []) (lit "    ")]) /\
  r_txt r <> [].
Proof.
  do 2 eexists. split; [reflexivity|]. split.
  - split; [eexists; constructor|]. split; [|exact I]. split; [eexists; constructor|]. repeat (constructor; [left; reflexivity|]). constructor.
  - cbn [concat_results fold_left]. unfold add_text. cbn [r_txt]. match goal with |- context [trim_with_browse ?a ?b ?c] => destruct (r_txt (trim_with_browse a b c)) end; discriminate.
Qed.
Lemma plain_offsets_lead_back ec x st r st' : browsable x -> plain_with_browse ec x st = Ok (r, st') ->
  exists ps rel, built r ps /\ r_browse r = origins 0 ps /\ aligns rel (raw_text ps) (r_txt r) /\
    forall a b, rel a b -> in_force (r_offset r) (Z.of_nat b) (Z.of_nat a - Z.of_nat b).
Proof.
  intros Hx H. destruct (plain_built ec x st r st' Hx H) as [ps Hps]. destruct (offsets_lead_back r ps Hps) as (B & rel & A & T).
  exists ps, rel. split; [exact Hps|]. split; [exact B|]. split; [exact A|]. intros a b Hab. apply (T a b Hab).
Qed.
Lemma lines_case : [lit "a"; lit "b"] <> [] /\ Forall no_break [lit "a"; lit "b"].
Proof. split; [discriminate|repeat constructor]. Qed.
Lemma every_text_follows ind lines : lines <> [] -> Forall no_break lines ->
  exists w, follows ind (join [10] lines) w /\ trim true ind (join [10] lines) = w.
Proof. intros H N. destruct (follows_exists ind lines H N) as [w F]. exists w. split; [exact F|apply trim_follows, F]. Qed.
Lemma other_breaks : ~ (forall ind l, ~ In 10 l -> ~ In 13 l -> ~ blank l -> (forall i, indented_by i l -> i = []) -> trim true ind l = l).
Proof.
  intros H. specialize (H (lit "  ") (lit "a" ++ 12 :: lit "b")). rewrite form_feed_case in H. assert (E : lit "a" ++ 12 :: lit "  b" = lit "a" ++ 12 :: lit "b"); [|discriminate E].
  apply H.
  - cbn. intuition discriminate.
  - cbn. intuition discriminate.
  - apply is_blank_false. reflexivity.
  - intros [|x i] (B & c & b & E & _); [reflexivity|]. inversion B as [|? ? Hx _]; subst. injection E as E _. rewrite <- E in Hx. destruct Hx; discriminate.
Qed.
Lemma browse_blank_line : ~ (forall ind u, r_txt (trim_with_browse true ind (res_of u)) = trim true ind u).
Proof. intros H. specialize (H (lit "  ") (lit "a" ++ [10; 10] ++ lit "b")). discriminate H. Qed.
Lemma browse_mixed : ~ (forall ind l l', ~ blank l -> ~ blank l' -> no_break l -> no_break l' ->
       r_txt (trim_with_browse true ind (res_of (join [10] [l; l']))) = trim true ind (join [10] [l; l'])).
Proof.
  intros H. specialize (H [] (32 :: 9 :: lit "a") (lit "  b")). assert (E : 32 :: 9 :: lit "a" ++ 10 :: lit "  b" = 9 :: lit "a" ++ 10 :: lit " b"); [|discriminate E].
  apply H; try (apply is_blank_false; reflexivity); repeat constructor.
Qed.
Lemma browse_reduce : ~ (forall u, r_txt (reduce_emptiness_browse true (res_of u)) = reduce_emptiness true u).
Proof. intros H. specialize (H (lit "a ")). discriminate H. Qed.
