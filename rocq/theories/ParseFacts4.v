(** * Locations of a parsed tree; what a parse leaves registered *)
From Coq Require Import List NArith ZArith Bool Lia ZifyBool ZifyNat ZifyN DecimalNat.
From Verif Require Import PyStr PyStrFacts Ast Lex LexSpec LexFacts Parse ParseSpec ParseFacts ParseFacts2 ParseFacts3 EnvSpec EnvFacts CodecFacts.
Import ListNotations.
Open Scope N_scope.
Open Scope monad_scope.

Lemma uint_text_inj u : forall v, uint_text u = uint_text v -> u = v.
Proof. induction u; intros v E; destruct v; cbn in E; try discriminate; try reflexivity; injection E as E; f_equal; auto. Qed.
Lemma nat_text_inj n m : nat_text n = nat_text m -> n = m.
Proof. unfold nat_text. intros E. apply uint_text_inj in E. apply Unsigned.to_uint_inj, E. Qed.

Section Located.
Variable cx : pctx.
Hypothesis numbers_free : no_numeral_files cx.
Definition grows (s s' : yst) : Prop := forall f t, known s f t -> known s' f t.
Lemma grows_refl s : grows s s. Proof. intros f t H. exact H. Qed.
Lemma grows_trans a b c : grows a b -> grows b c -> grows a c.
Proof. intros A B f t H. apply B, A, H. Qed.
Lemma known_set k v s f t : known (set_source (dict_set k v (y_source s)) s) f t <-> (if teqb f k then t = snd v else known s f t).
Proof.
  unfold known. cbn. rewrite dict_get_set'. destruct (teqb f k); [|reflexivity]. destruct v as [d t']. cbn. split.
  - intros (d' & E). congruence.
  - intros ->. exists d. reflexivity.
Qed.
Lemma import_grows lib c s : (consistent cx) s -> c_read cx (lib_path cx lib) = Some c ->
  let s' := set_source (dict_set lib (DPath (lib_path cx lib), unify_eol c) (y_source s)) s in (consistent cx) s' /\ grows s s'.
Proof.
  intros [C1 C2] R s'. unfold s'. split; [split|].
  - intros l c' t R' K. apply known_set in K. destruct (teqb_spec l lib) as [->|Nn]; [cbn in K; congruence|]. eapply C1; eassumption.
  - intros n t L K. apply known_set in K. destruct (teqb_spec (nat_text n) lib) as [<-|Nn]; [rewrite numbers_free in R; discriminate|]. eapply C2; eassumption.
  - intros f t K. apply known_set. destruct (teqb_spec f lib) as [->|Nn]; [|exact K]. cbn. eapply C1; eassumption.
Qed.
Notation ok := (okm True (consistent cx) grows).
Notation good := (good known).

Lemma yuparse_located n : forall key s, (consistent cx) s -> ok (yuparse cx n key) s (fun l s' => Forall (good s') l).
Proof.
  induction n as [|n IH]; intros key s C; [exact I|]. cbn [yuparse].
  destruct (dict_get key (y_source s)) as [[d src]|] eqn:D.
  2:{ unfold okm, yuparse_with, bind, get_st. rewrite D. exact I. }
  set (Inv := fun s => (consistent cx) s /\ known s key src).
  assert (St : forall A (m : M A) s1 Q, ok m s1 Q -> Inv s1 -> okm True Inv grows m s1 Q).
  { intros A m s1 Q H [_ K]. unfold okm in *. destruct (m s1) as [[a s2]|e|]; try exact H. destruct H as (H1 & H2 & H3).
    split; [split; [exact H1|apply H2, K]|]. split; assumption. }
  assert (Im : forall lib once s1, Inv s1 -> okm True Inv grows (let* k := import_source cx lib once in yuparse cx n k) s1 (fun l s' => Forall (good s') l)).
  { intros lib once s1 I1. apply St; [|exact I1]. destruct I1 as [C1 _]. unfold okm, bind at 1.
    destruct (once && dict_mem lib (y_source s1)) eqn:B.
    - apply andb_prop in B. destruct B as [-> B]. rewrite (import_known _ _ _ B). apply (IH source_empty s1 C1).
    - rewrite import_new by (apply andb_false_iff in B; exact B). destruct (c_read cx (lib_path cx lib)) as [c|] eqn:R; [|exact I].
      destruct (import_grows lib c s1 C1 R) as [C2 G2]. specialize (IH lib _ C2). unfold okm in IH.
      destruct (yuparse cx n lib _) as [[l s3]|e|]; try exact IH. destruct IH as (A1 & A2 & A3).
      split; [exact A1|]. split; [eapply grows_trans; eassumption|exact A3]. }
  assert (K : okm True Inv grows (yuparse_with cx (yuparse cx n) key) s (fun l s' => Forall (good s') l)).
  { eapply yuparse_with_ok with (src := src) (d := d); try exact D.
    - exact grows_refl.
    - exact grows_trans.
    - intros s1 s2 f t G Kn. apply G, Kn.
    - intros s1 [_ Kn]. exact Kn.
    - intros m s1 I1. split; [exact I1|intros f t Kn; exact Kn].
    - intros _ lib s1 I1. apply Im, I1.
    - right. split; [intros lib s1 I1; apply Im, I1|]. split.
      + intros f s1 I1. apply St; [|exact I1]. destruct I1 as [C1 K1]. unfold okm, import_python, bind, get_st, lift, modify, ret. cbv beta iota.
        destruct (existsb _ _); [split; [exact C1|split; [apply grows_refl|exact I]]|].
        destruct (c_pyimport cx _); try exact I. split; [split; [apply C1|intros m t L Kn; destruct C1 as [_ C1]; eapply C1; [|exact Kn]; exact L]|]. split; [intros g t Kn; exact Kn|exact I].
      + intros ast f p s1 I1. apply St; [|exact I1]. destruct I1 as [C1 K1]. unfold okm, import_eval, bind, get_st, lift, modify, ret. cbv beta iota.
        destruct (c_evalimport cx _) as [sou|e|]; try exact I. cbv beta iota.
        set (s2 := set_source _ _).
        assert (C2 : (consistent cx) s2 /\ grows s1 s2).
        { assert (Kn : forall g t, known s2 g t <-> (if teqb g (nat_text (length (y_inclusion s1))) then t = sou else known s1 g t)).
          { intros g t. unfold s2, known. cbn. rewrite dict_get_set'. destruct (teqb g _); [|reflexivity]. split; [intros (d' & E); congruence|intros ->; eexists; reflexivity]. }
          destruct C1 as [Ca Cb]. split; [split|].
          - intros lib c t R K. apply Kn in K. destruct (teqb_spec lib (nat_text (length (y_inclusion s1)))) as [->|Nn]; [rewrite numbers_free in R; discriminate|].
            eapply Ca; eassumption.
          - intros m t L K. unfold s2 in L. cbn in L. rewrite app_length in L. cbn in L. apply Kn in K.
            destruct (teqb_spec (nat_text m) (nat_text (length (y_inclusion s1)))) as [E|Nn]; [apply nat_text_inj in E; lia|]. eapply Cb; [|exact K]. lia.
          - intros g t K. apply Kn. destruct (teqb_spec g (nat_text (length (y_inclusion s1)))) as [->|Nn]; [|exact K].
            exfalso. eapply Cb; [|exact K]. lia. }
        destruct C2 as [C2 G2]. specialize (IH (nat_text (length (y_inclusion s1))) s2 C2). unfold okm in IH. fold s2.
        destruct (yuparse cx n _ s2) as [[l s3]|e|]; try exact IH. destruct IH as (A1 & A2 & A3).
        split; [exact A1|]. split; [eapply grows_trans; eassumption|exact A3].
    - split; [exact C|exists d; exact D]. }
  unfold okm in *. destruct (yuparse_with cx (yuparse cx n) key s) as [[l s2]|e|]; try exact K. destruct K as ([K1 _] & K2 & K3). auto.
Qed.
Lemma tree_located n key s l s' : (consistent cx) s -> yuparse cx n key s = Ok (l, s') -> Forall (well_located (known s')) l.
Proof.
  intros C E. pose proof (yuparse_located n key s C) as K. unfold okm in K. rewrite E in K. destruct K as (_ & _ & K). exact K.
Qed.
End Located.

(** ** Registered names stay *)
Definition anything (s : yst) (f t : text) : Prop := True.
Lemma yuparse_keeps cx n : forall key s,
  okm True (fun _ => True) keeps (yuparse cx n key) s (fun l s' => Forall (good anything s') l).
Proof.
  induction n as [|n IH]; intros key s; [exact I|]. cbn [yuparse].
  destruct (dict_get key (y_source s)) as [[d src]|] eqn:D.
  2:{ unfold okm, yuparse_with, bind, get_st. rewrite D. exact I. }
  assert (Re : forall s, keeps s s) by (intros s0 k Hk; exact Hk).
  assert (Tr : forall a b c, keeps a b -> keeps b c -> keeps a c) by (intros a b c A B k Hk; apply B, A, Hk).
  assert (Im : forall lib once s1, okm True (fun _ => True) keeps (let* k := import_source cx lib once in yuparse cx n k) s1 (fun l s' => Forall (good anything s') l)).
  { intros lib once s1. unfold okm, bind at 1.
    destruct (once && dict_mem lib (y_source s1)) eqn:B.
    - apply andb_prop in B. destruct B as [-> B]. rewrite (import_known _ _ _ B). apply (IH source_empty s1).
    - rewrite import_new by (apply andb_false_iff in B; exact B). destruct (c_read cx (lib_path cx lib)) as [c|] eqn:R; [|exact I].
      set (s2 := set_source _ _).
      assert (G2 : keeps s1 s2) by (apply keeps_set).
      specialize (IH lib s2). unfold okm in IH.
      destruct (yuparse cx n lib s2) as [[l s3]|e|]; try exact IH. destruct IH as (A1 & A2 & A3).
      split; [exact A1|]. split; [eapply Tr; eassumption|exact A3]. }
  eapply yuparse_with_ok with (src := src) (d := d); try exact D; auto.
  - intros m s1 _. split; [exact I|intros k Hk; exact Hk].
  - intros _ lib s1 _. apply Im.
  - right. split; [intros lib s1 _; apply Im|]. split.
    + intros f s1 _. unfold okm, import_python, bind, get_st, lift, modify, ret. cbv beta iota.
      destruct (existsb _ _); [split; [exact I|split; [apply Re|exact I]]|].
      destruct (c_pyimport cx _); try exact I. split; [exact I|]. split; [intros k Hk; exact Hk|exact I].
    + intros ast f p s1 _. unfold okm, import_eval, bind, get_st, lift, modify, ret. cbv beta iota.
      destruct (c_evalimport cx _) as [sou|e|]; try exact I. cbv beta iota.
      set (s2 := set_source _ _).
      assert (G2 : keeps s1 s2). { intros k Hk. unfold s2. cbn [y_source set_source set_inclusion]. rewrite dict_mem_set', Hk. apply orb_true_r. }
      specialize (IH (nat_text (length (y_inclusion s1))) s2). unfold okm in IH. fold s2.
      destruct (yuparse cx n _ s2) as [[l s3]|e|]; try exact IH. destruct IH as (A1 & A2 & A3).
      split; [exact A1|]. split; [eapply Tr; eassumption|exact A3].
Qed.
Lemma parse_keeps cx n key s l s' : yuparse cx n key s = Ok (l, s') -> keeps s s'.
Proof.
  intros E. pose proof (yuparse_keeps cx n key s) as K. unfold okm in K. rewrite E in K. apply K.
Qed.
