(** What names mean (proofs only). *)
From Coq Require Import List NArith ZArith Bool String Lia ZifyBool ZifyNat ZifyN.
From Verif Require Import PyStr Ast Lex Parse Final Eval Builtin Builtin2 Shell Pp PyStrFacts LexSpec LexFacts FinalSpec FinalFacts CodecFacts NumFacts EnvSpec EnvFacts EvalSpec EvalMono EvalKeep EvalPure EvalFacts EvalFacts2 EvalFacts3 EvalFacts4 BuiltinSpec BuiltinFacts TextSpec TextFacts TextCases QuoteFacts NameSpec.
Import ListNotations.
Open Scope list_scope.

(** ** White space around a text *)
Lemma strip_bare x : bare_text x (strip x).
Proof.
  unfold strip. destruct (lstrip_split x) as (a & Ea & Ha). destruct (rstrip_trimmed (lstrip x)) as (b & Eb & Hb & Hc).
  exists a, b. split; [rewrite <- Eb; exact Ea|]. split; [exact Ha|]. split; [exact Hb|]. split.
  - intros (c & r & E & Hs). assert (K : lstrip x = c :: r ++ b) by (rewrite Eb, E; reflexivity).
    clear - K Hs. induction x as [|d x IH]; [discriminate K|]. cbn [lstrip] in K. destruct (py_isspace d) eqn:Ed; [exact (IH K)|]. injection K as -> _. unfold space in Hs. congruence.
  - intros (c & r & E & Hs). destruct Hc as [Hc|(b' & c' & Hc & Hs')]; [rewrite Hc in E; destruct r; discriminate E|].
    rewrite Hc in E. apply app_inj_tail in E as [_ ->]. unfold space in Hs. congruence.
Qed.
Lemma front_unique (a a' t t' : text) : a ++ t = a' ++ t' -> Forall space a -> Forall space a' -> ~ begins_with space t -> ~ begins_with space t' -> t = t'.
Proof.
  revert a'. induction a as [|c a IH]; intros [|c' a'] E Ha Ha' Ht Ht'; cbn [app] in E; try (injection E as -> E); try assumption.
  - exfalso. apply Ht. exists c', (a' ++ t'). split; [exact E|]. inversion Ha'; assumption.
  - exfalso. apply Ht'. exists c, (a ++ t). split; [symmetry; exact E|]. inversion Ha; assumption.
  - inversion Ha; inversion Ha'; subst. eapply IH; eassumption.
Qed.
Lemma begins_rev p t : begins_with p (rev t) <-> ends_with p t.
Proof.
  split; intros (c & r & E & H).
  - exists c, (rev r). split; [|exact H]. rewrite <- (rev_involutive t), E. reflexivity.
  - exists c, (rev r). split; [|exact H]. rewrite E, rev_app_distr. reflexivity.
Qed.
Lemma bare_unique x t t' : bare_text x t -> bare_text x t' -> t = t'.
Proof.
  intros (a & b & E & Ha & Hb & H1 & H2) (a' & b' & E' & Ha' & Hb' & H1' & H2'). rewrite E in E'. clear E.
  assert (K : forall u v, Forall space v -> begins_with space (u ++ v) -> begins_with space u \/ u = [] ).
  { intros [|c u] v _ B; [right; reflexivity|]. left. destruct B as (d & r & E & Hd). injection E as -> _. exists d, u. split; [reflexivity|exact Hd]. }
  (* all white *)
  assert (W : forall u v w : text, Forall space u -> Forall space v -> u ++ v = w -> Forall space w) by (intros ? ? ? ? ? <-; apply Forall_app; split; assumption).
  destruct t as [|c t]; destruct t' as [|c' t'].
  - reflexivity.
  - exfalso. assert (F : Forall space (a' ++ (c' :: t') ++ b')) by (eapply (W a b); eassumption). rewrite !Forall_app in F. destruct F as (_ & F & _). inversion F as [|? ? Hs _]; subst. apply H1'. exists c', t'. split; [reflexivity|exact Hs].
  - exfalso. assert (F : Forall space (a ++ (c :: t) ++ b)) by (eapply (W a' b'); [assumption|assumption|symmetry; exact E']). rewrite !Forall_app in F. destruct F as (_ & F & _). inversion F as [|? ? Hs _]; subst. apply H1. exists c, t. split; [reflexivity|exact Hs].
  - assert (E1 : (c :: t) ++ b = (c' :: t') ++ b').
    { eapply front_unique; [exact E'|assumption|assumption| |]; intros B.
      - destruct (K _ _ Hb B) as [B1|B1]; [exact (H1 B1)|discriminate B1].
      - destruct (K _ _ Hb' B) as [B1|B1]; [exact (H1' B1)|discriminate B1]. }
    assert (E2 : rev b ++ rev (c :: t) = rev b' ++ rev (c' :: t')) by (rewrite <- !rev_app_distr, E1; reflexivity).
    apply front_unique in E2; [|apply Forall_rev; assumption|apply Forall_rev; assumption|intros B; apply begins_rev in B; contradiction|intros B; apply begins_rev in B; contradiction].
    rewrite <- (rev_involutive (c :: t)), E2. apply rev_involutive.
Qed.
Lemma strip_is x t : bare_text x t -> strip x = t.
Proof. intros H. eapply bare_unique; [apply strip_bare|exact H]. Qed.
Lemma strip_white m : Forall space m -> strip m = [].
Proof.
  intros H. apply strip_is. exists m, []. cbn [app]. rewrite app_nil_r. repeat split; try assumption; try apply Forall_nil.
  - intros (c & r & E & _). discriminate E.
  - intros (c & r & E & _). destruct r; discriminate E.
Qed.
Lemma white_strip m : strip m = [] -> Forall space m.
Proof. intros E. pose proof (strip_bare m) as (a & b & Em & Ha & Hb & _). rewrite E in Em. rewrite Em. apply Forall_app. split; assumption. Qed.

(** ** Options *)
Lemma split_colon_some x m : ~ In 58%N x -> split_colon (x ++ 58%N :: m) = (x, Some m).
Proof.
  intros Hx. unfold split_colon. assert (K : find_sub [58%N] (x ++ 58%N :: m) = Some (List.length x)).
  { induction x as [|c x IH]; [reflexivity|]. assert (Hc : c <> 58%N) by (intros ->; apply Hx; left; reflexivity).
    assert (Hs : startswith [58%N] (c :: x ++ 58%N :: m) = false) by (unfold startswith; lia).
    cbn [app find_sub]. rewrite Hs, IH; [reflexivity|]. intros H. apply Hx. right. exact H. }
  rewrite K, firstn_app, Nat.sub_diag, firstn_all. cbn [firstn]. rewrite app_nil_r. f_equal. f_equal.
  replace (S (List.length x)) with (List.length x + 1)%nat by lia. clear. induction x as [|c x IH]; [reflexivity|]. cbn [List.length Nat.add app skipn]. exact IH.
Qed.
Lemma split_colon_none x : ~ In 58%N x -> split_colon x = (x, None).
Proof.
  intros Hx. unfold split_colon. destruct (find_sub [58%N] x) as [i|] eqn:E; [|reflexivity]. exfalso.
  destruct (find_sub_some _ _ _ E) as (_ & K & _). apply Hx. rewrite K. apply in_or_app. right. left. reflexivity.
Qed.
Lemma split_colon_cases x : (~ In 58%N x /\ split_colon x = (x, None)) \/ (exists y m, x = y ++ 58%N :: m /\ ~ In 58%N y /\ split_colon x = (y, Some m)).
Proof.
  assert (K : ~ In 58%N x \/ exists y m, x = y ++ 58%N :: m /\ ~ In 58%N y).
  { induction x as [|c x [IH|(y & m & -> & Hy)]]; [left; intros []| |].
    - destruct (N.eq_dec c 58) as [->|Hc]; [right; exists [], x; split; [reflexivity|intros []]|]. left. intros [H|H]; [congruence|contradiction].
    - destruct (N.eq_dec c 58) as [->|Hc]; [right; exists [], (y ++ 58%N :: m); split; [reflexivity|intros []]|]. right. exists (c :: y), m. split; [reflexivity|]. intros [H|H]; [congruence|contradiction]. }
  destruct K as [K|(y & m & E & Hy)]; [left; split; [exact K|apply split_colon_none; exact K]|]. right. exists y, m. split; [exact E|]. split; [exact Hy|]. rewrite E. apply split_colon_some. exact Hy.
Qed.
Lemma atom_whole k : identifier k -> ps_atom (raw k) = (Src [] None (Z.of_nat (List.length k)), Some (raw k)).
Proof. intros Hk. unfold raw. pose proof (ps_atom_ident k [] None 0 Hk Logic.I) as K. rewrite app_nil_r in K. exact K. Qed.
Definition of_option (v : node) : cval := match v with NRaw t => VStr t | _ => VBool true end.
Lemma define_sets b x k v : option_sets x k v -> define_one b x = dict_set k (of_option v) b.
Proof.
  unfold define_one. intros [x' k' Hx Hk Hi|x' k' m Hx Hk Hi Hm|x' k' m t Hx Hk Hi Hm Ht].
  - rewrite (split_colon_none x' Hx), (strip_is _ _ Hk), (atom_whole k' Hi). reflexivity.
  - rewrite (split_colon_some x' m Hx), (strip_is _ _ Hk), (atom_whole k' Hi), (strip_white m Hm). reflexivity.
  - rewrite (split_colon_some x' m Hx), (strip_is _ _ Hk), (atom_whole k' Hi), (strip_is _ _ Hm). destruct t; [contradiction|reflexivity].
Qed.
Lemma define_cases b x : (exists k v, option_sets x k v) \/ ((forall k v, ~ option_sets x k v) /\ define_one b x = b).
Proof.
  destruct (split_colon_cases x) as [(Hx & E)|(y & m & -> & Hy & E)].
  - destruct (ps_atom (raw (strip x))) as [rest [a|]] eqn:Ea.
    + destruct (s_txt rest) as [|c r] eqn:Er.
      * left. apply ps_atom_split in Ea as (Hi & _ & Es & _). rewrite Er, app_nil_r in Es. exists (strip x), (NBool true). apply OS_bare; [exact Hx|apply strip_bare|].
        unfold raw in Es. injection Es as Es. rewrite Es. exact Hi.
      * right. split; [|unfold define_one; rewrite E, Ea, Er; reflexivity]. intros k v H. destruct H as [x' k' Hx' Hk Hi|x' k' m Hx' Hk Hi _|x' k' m t Hx' Hk Hi _ _].
        -- rewrite (strip_is _ _ Hk), (atom_whole k' Hi) in Ea. injection Ea as <- <-. discriminate Er.
        -- apply Hx. apply in_or_app. right. left. reflexivity.
        -- apply Hx. apply in_or_app. right. left. reflexivity.
    + right. split; [|unfold define_one; rewrite E, Ea; destruct rest; reflexivity]. intros k v H. destruct H as [x' k' Hx' Hk Hi|x' k' m Hx' Hk Hi _|x' k' m t Hx' Hk Hi _ _].
      * rewrite (strip_is _ _ Hk), (atom_whole k' Hi) in Ea. discriminate Ea.
      * apply Hx. apply in_or_app. right. left. reflexivity.
      * apply Hx. apply in_or_app. right. left. reflexivity.
  - assert (U : forall x' m', y ++ 58%N :: m = x' ++ 58%N :: m' -> ~ In 58%N x' -> x' = y).
    { intros x' m' Em Hn. pose proof (split_colon_some x' m' Hn) as K. rewrite <- Em, E in K. injection K as ->. reflexivity. }
    destruct (ps_atom (raw (strip y))) as [rest [a|]] eqn:Ea.
    + destruct (s_txt rest) as [|c r] eqn:Er.
      * left. apply ps_atom_split in Ea as (Hi & _ & Es & _). rewrite Er, app_nil_r in Es. unfold raw in Es. injection Es as Es. rewrite <- Es in Hi.
        destruct (strip m) as [|c t] eqn:Em.
        -- exists (strip y), (NBool true). apply OS_empty; [exact Hy|apply strip_bare|exact Hi|apply white_strip; exact Em].
        -- exists (strip y), (NRaw (c :: t)). apply OS_value; [exact Hy|apply strip_bare|exact Hi|rewrite <- Em; apply strip_bare|discriminate].
      * right. split; [|unfold define_one; rewrite E, Ea, Er; reflexivity]. intros k v H. remember (y ++ 58%N :: m) as u eqn:Eu. destruct H as [x' k' Hx' Hk Hi|x' k' m' Hx' Hk Hi _|x' k' m' t Hx' Hk Hi _ _].
        -- apply Hx'. rewrite Eu. apply in_or_app. right. left. reflexivity.
        -- apply (U _ _ eq_refl) in Hx'. subst x'. rewrite (strip_is _ _ Hk), (atom_whole k' Hi) in Ea. injection Ea as <- <-. discriminate Er.
        -- apply (U _ _ eq_refl) in Hx'. subst x'. rewrite (strip_is _ _ Hk), (atom_whole k' Hi) in Ea. injection Ea as <- <-. discriminate Er.
    + right. split; [|unfold define_one; rewrite E, Ea; destruct rest; reflexivity]. intros k v H. remember (y ++ 58%N :: m) as u eqn:Eu. destruct H as [x' k' Hx' Hk Hi|x' k' m' Hx' Hk Hi _|x' k' m' t Hx' Hk Hi _ _].
      * apply Hx'. rewrite Eu. apply in_or_app. right. left. reflexivity.
      * apply (U _ _ eq_refl) in Hx'. subst x'. rewrite (strip_is _ _ Hk), (atom_whole k' Hi) in Ea. discriminate Ea.
      * apply (U _ _ eq_refl) in Hx'. subst x'. rewrite (strip_is _ _ Hk), (atom_whole k' Hi) in Ea. discriminate Ea.
Qed.
Lemma option_value x k v : option_sets x k v -> define_node (of_option v) = v.
Proof. intros []; reflexivity. Qed.
Lemma set_keys {A} k (v : A) d : NoDup (names d) -> NoDup (names (dict_set k v d)).
Proof.
  intros H. destruct (dict_mem k d) eqn:E.
  - apply dict_mem_names in E. destruct (dict_set_same d k v E) as (b & o & a & -> & _ & ->). unfold names in *. rewrite map_app in *. exact H.
  - assert (K : ~ In k (names d)) by (intros H'; apply dict_mem_names in H'; congruence).
    assert (S : dict_set k v d = d ++ [(k, v)]).
    { clear - K. induction d as [|[k' v'] d IH]; [reflexivity|]. cbn [dict_set names map fst In] in *. destruct (teqb_spec k k') as [->|Hn]; [tauto|]. cbn [app]. rewrite IH; [reflexivity|tauto]. }
    rewrite S. unfold names. rewrite map_app. cbn [map fst]. 
    clear - H K. unfold names in *. induction d as [|[k' v'] d IH]; [apply NoDup_cons; [intros []|apply NoDup_nil]|]. cbn [map fst app] in *. inversion H; subst. apply NoDup_cons.
    + intros Hi. apply in_app_or in Hi as [Hi|[Hi|[]]]; [contradiction|]. apply K. left. symmetry. exact Hi.
    + apply IH; [assumption|]. intros Hi. apply K. right. exact Hi.
Qed.
Lemma options_fold opts : forall d, NoDup (names d) -> NoDup (names (fold_left define_one opts d)) /\
  forall k, (forall v, configured opts k v -> dict_get k (fold_left define_one opts d) = Some (of_option v)) /\
            (not_configured opts k -> dict_get k (fold_left define_one opts d) = dict_get k d).
Proof.
  induction opts as [|x opts IH] using rev_ind; intros d Hd.
  - split; [exact Hd|]. intros k. split; [|reflexivity]. intros v (b & x & a & E & _). destruct b; discriminate E.
  - rewrite fold_left_app. cbn [fold_left]. destruct (IH d Hd) as [N0 G]. set (d1 := fold_left define_one opts d) in *.
    destruct (define_cases d1 x) as [(k0 & v0 & Hs)|[Hn E]].
    + rewrite (define_sets d1 x k0 v0 Hs). split; [apply set_keys; exact N0|]. intros k. destruct (G k) as [G1 G2].
      assert (U : forall k' v', option_sets x k' v' -> k' = k0 /\ of_option v' = of_option v0).
      { intros k' v' Hs'. pose proof (define_sets [] x k0 v0 Hs) as A. rewrite (define_sets [] x k' v' Hs') in A. cbn [dict_set] in A. injection A as -> A. split; [reflexivity|exact A]. }
      split.
      * intros v (b & y & a & E & Hy & Hl). rewrite dict_get_set'. destruct (teqb_spec k k0) as [->|Hk].
        -- destruct a as [|z a] using rev_ind; [apply app_inj_tail in E as [_ <-]; destruct (U _ _ Hy) as [_ ->]; reflexivity|]. clear IHa.
           exfalso. rewrite app_comm_cons, app_assoc in E. apply app_inj_tail in E as [_ <-]. apply (Hl x v0); [apply in_or_app; right; left; reflexivity|exact Hs].
        -- apply G1. destruct a as [|z a] using rev_ind; [apply app_inj_tail in E as [_ <-]; destruct (U _ _ Hy) as [-> _]; contradiction|]. clear IHa.
           rewrite app_comm_cons, app_assoc in E. apply app_inj_tail in E as [-> ->]. exists b, y, a. split; [reflexivity|]. split; [exact Hy|]. intros y' v' Hi. apply Hl. apply in_or_app. left. exact Hi.
      * intros Hc. rewrite dict_get_set'. destruct (teqb_spec k k0) as [->|Hk]; [exfalso; apply (Hc x v0); [apply in_or_app; right; left; reflexivity|exact Hs]|].
        apply G2. intros y v Hi. apply Hc. apply in_or_app. left. exact Hi.
    + rewrite E. split; [exact N0|]. intros k. destruct (G k) as [G1 G2]. split.
      * intros v (b & y & a & Eo & Hy & Hl). apply G1. destruct a as [|z a] using rev_ind; [apply app_inj_tail in Eo as [_ <-]; exfalso; exact (Hn _ _ Hy)|]. clear IHa.
        rewrite app_comm_cons, app_assoc in Eo. apply app_inj_tail in Eo as [-> ->]. exists b, y, a. split; [reflexivity|]. split; [exact Hy|]. intros y' v' Hi. apply Hl. apply in_or_app. left. exact Hi.
      * intros Hc. apply G2. intros y v Hi. apply Hc. apply in_or_app. left. exact Hi.
Qed.
Lemma merge_get (l : list (text * cval)) : forall old k, NoDup (names l) ->
  dict_get k (fold_left (fun d kv => dict_set (fst kv) (define_node (snd kv)) d) l old) = match dict_get k l with Some v => Some (define_node v) | None => dict_get k old end.
Proof.
  induction l as [|[k' v'] l IH]; intros old k H; [reflexivity|]. cbn [fold_left fst snd dict_get]. cbn [names map fst] in H. inversion H as [|? ? Hn Hl]; subst. rewrite IH by exact Hl.
  rewrite dict_get_set'. destruct (teqb_spec k k') as [->|Hk]; [|reflexivity]. apply dict_get_none in Hn. rewrite Hn. reflexivity.
Qed.
Lemma constants opts old k : (forall v, configured opts k v -> dict_get k (updated_defines opts old) = Some v) /\
  (not_configured opts k -> dict_get k (updated_defines opts old) = dict_get k old).
Proof.
  unfold updated_defines. destruct (options_fold opts [] (NoDup_nil _)) as [N0 G]. destruct (G k) as [G1 G2]. split.
  - intros v Hv. rewrite merge_get, (G1 v Hv) by exact N0. f_equal. destruct Hv as (b & x & a & _ & Hx & _). exact (option_value x k v Hx).
  - intros Hc. rewrite merge_get, (G2 Hc) by exact N0. reflexivity.
Qed.
