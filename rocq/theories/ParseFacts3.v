(** * The parser terminates; imports by name *)
From Coq Require Import List NArith ZArith Bool Lia ZifyBool ZifyNat ZifyN.
From Verif Require Import PyStr PyStrFacts Ast Lex LexSpec LexFacts Parse ParseSpec ParseFacts ParseFacts2 EnvSpec EnvFacts CodecFacts.
Import ListNotations.
Open Scope N_scope.
Open Scope monad_scope.

Lemma occurs_at key t i : sstarts ps_IMPORT (at_ key t i) = true -> exists a r, t = a ++ lit "($import" ++ r /\ skipn (i + 8) t = r.
Proof.
  unfold sstarts. cbn [s_txt at_]. intros E. apply startswith_skipn in E. exists (firstn i t), (skipn 8 (skipn i t)).
  split; [|symmetry; apply skipn_skipn'].
  rewrite <- (firstn_skipn i t) at 1. f_equal. exact E.
Qed.
Lemma named_of_spec key t : imports_by_name t -> named_here key t.
Proof.
  intros H i L E. apply occurs_at in E. destruct E as (a & r & Et & Er).
  pose proof (longest_run_span _ _ r white_spec) as (Sp & Fg & Sg).
  set (g := firstn (span_len (fun c => ps_EOL c || ps_SPACE c) r) r) in *.
  set (r2 := skipn (span_len (fun c => ps_EOL c || ps_SPACE c) r) r) in *. clearbody g r2.
  assert (Eg : gap (at_ key t (i + 8)) = Src r2 (Some key) (Z.of_nat (i + 8) + Z.of_nat (length g))).
  { unfold at_. rewrite Er, Sp. apply gap_run; assumption. }
  rewrite Eg. rewrite Sp in Et. destruct (H a g r2 Et Fg Sg) as (c & r' & -> & Lc).
  unfold ps_atom. cbn [s_txt]. apply ps_LETTER_spec in Lc. rewrite Lc. discriminate.
Qed.
Lemma no_imports_at key t i : no_imports t -> sstarts ps_IMPORT (at_ key t i) = false.
Proof.
  intros H. destruct (sstarts ps_IMPORT (at_ key t i)) eqn:E; [|reflexivity]. exfalso. apply occurs_at in E.
  destruct E as (a & r & Et & _). apply H. exists a, r. exact Et.
Qed.

Lemma import_known cx lib s : dict_mem lib (y_source s) = true -> import_source cx lib true s = Ok (source_empty, s).
Proof. intros M. unfold import_source, bind, get_st, ret. cbv beta iota. rewrite M. reflexivity. Qed.
Lemma import_new cx lib once s : once = false \/ dict_mem lib (y_source s) = false -> import_source cx lib once s =
  match c_read cx (lib_path cx lib) with
  | None => Err (Exn IOError "ps_import: no such file")
  | Some c => Ok (lib, set_source (dict_set lib (DPath (lib_path cx lib), unify_eol c) (y_source s)) s)
  end.
Proof.
  intros M. unfold import_source, bind, get_st, ret. cbv beta iota.
  replace (once && dict_mem lib (y_source s)) with false by (destruct M as [->| ->]; [reflexivity|rewrite andb_false_r; reflexivity]).
  destruct (c_read cx (lib_path cx lib)); reflexivity.
Qed.

(** ** Without imports *)
Lemma parse_total_with cx imp key s d t : dict_get key (y_source s) = Some (d, t) -> no_imports t ->
  yuparse_with cx imp key s <> Fuel.
Proof.
  intros D H.
  assert (K : okm False (fun _ => True) (fun _ _ => True) (yuparse_with cx imp key) s (fun l s' => Forall (good (fun _ f t' => f = key /\ t' = t) s') l)).
  { eapply yuparse_with_ok with (src := t); try exact D; auto.
    - intros (i & Li & E). rewrite (no_imports_at key t i H) in E. discriminate.
    - left. intros i Li E. rewrite (no_imports_at key t i H) in E. discriminate. }
  unfold okm in K. intros F. rewrite F in K. exact K.
Qed.
Lemma parse_total cx n key s d t : dict_get key (y_source s) = Some (d, t) -> no_imports t ->
  (exists l s', yuparse cx (S n) key s = Ok (l, s')) \/ (exists e, yuparse cx (S n) key s = Err e).
Proof.
  intros D H. pose proof (parse_total_with cx (yuparse cx n) key s d t D H) as K.
  cbn [yuparse]. destruct (yuparse_with cx (yuparse cx n) key s) as [[l s']|e|]; [left; eauto|right; eauto|congruence].
Qed.
Lemma parse_no_key cx n key s : dict_get key (y_source s) = None -> exists e, yuparse cx (S n) key s = Err e.
Proof. intros D. cbn [yuparse]. unfold yuparse_with, bind, get_st. rewrite D. eexists. reflexivity. Qed.

(** ** With imports by name *)
Fixpoint suffixes (s : text) : list text := s :: match s with [] => [] | _ :: r => suffixes r end.
Lemma suffixes_spec b : forall a, In b (suffixes (a ++ b)).
Proof. induction a as [|c a IH]; [destruct b; left; reflexivity|]. right. exact IH. Qed.
Lemma path_join_suffix d lib : exists a, path_join d lib = a ++ lib.
Proof.
  unfold path_join. destruct (startswith _ lib); [exists []; reflexivity|]. destruct d as [|c d]; [exists []; reflexivity|].
  match goal with |- context [if ?b then _ else _] => destruct b end; [exists (c :: d); reflexivity|].
  exists ((c :: d) ++ [c_slash]). rewrite <- app_assoc. reflexivity.
Qed.
Lemma find_lib_suffix cx lib : forall dirs p, (exists a, p = a ++ lib) -> exists a, find_lib cx dirs lib p = a ++ lib.
Proof.
  induction dirs as [|d ds IH]; intros p H; cbn [find_lib]; [exact H|]. pose proof (path_join_suffix d lib) as K.
  destruct (c_read cx (path_join d lib)); [exact K|apply IH, K].
Qed.
Lemma lib_path_suffix cx lib : exists a, lib_path cx lib = a ++ lib.
Proof. unfold lib_path. destruct (c_read cx lib); [exists []; reflexivity|]. apply find_lib_suffix. exists []. reflexivity. Qed.

Section ByName.
Variable cx : pctx.
Variable files : list text.
Hypothesis finite : forall p, c_read cx p <> None -> In p files.
Hypothesis clean : forall p c, c_read cx p = Some c -> imports_by_name (unify_eol c).
Let libs : list text := List.concat (map suffixes files).
Lemma lib_listed lib : c_read cx (lib_path cx lib) <> None -> In lib libs.
Proof.
  intros H. apply finite in H. unfold libs. apply in_concat. exists (suffixes (lib_path cx lib)). split; [apply in_map, H|].
  destruct (lib_path_suffix cx lib) as (a & ->). apply suffixes_spec.
Qed.
Definition unread (s : yst) : nat := length (filter (fun l => negb (dict_mem l (y_source s))) libs).
Definition keeps (s s' : yst) : Prop := forall k, dict_mem k (y_source s) = true -> dict_mem k (y_source s') = true.
Lemma filter_le {A} (p q : A -> bool) l : (forall x, q x = true -> p x = true) -> (length (filter q l) <= length (filter p l))%nat.
Proof.
  intros H. induction l as [|x l IH]; cbn; [lia|]. destruct (q x) eqn:E; [rewrite (H x E); cbn; lia|]. destruct (p x); cbn; lia.
Qed.
Lemma filter_lt {A} (p q : A -> bool) l x : (forall x, q x = true -> p x = true) -> In x l -> p x = true -> q x = false ->
  (length (filter q l) < length (filter p l))%nat.
Proof.
  intros H I0 P Q. induction l as [|y l IH]; [contradiction|]. pose proof (filter_le p q l H) as Le. cbn. destruct I0 as [->|I0].
  - rewrite P, Q. cbn. lia.
  - specialize (IH I0). destruct (q y) eqn:E; [rewrite (H y E); cbn; lia|]. destruct (p y); cbn; lia.
Qed.
Lemma unread_keeps s s' : keeps s s' -> (unread s' <= unread s)%nat.
Proof.
  intros K. apply filter_le. intros x E. destruct (dict_mem x (y_source s)) eqn:D; [|reflexivity]. rewrite (K x D) in E. discriminate.
Qed.
Lemma dict_mem_set' {A} k k' (v : A) d : dict_mem k (dict_set k' v d) = teqb k k' || dict_mem k d.
Proof. unfold dict_mem. rewrite dict_get_set'. destruct (teqb k k'); reflexivity. Qed.

Definition has_empty (s : yst) : Prop := exists d, dict_get source_empty (y_source s) = Some (d, []).
Definition named_inv (n : nat) (s : yst) : Prop := has_empty s /\ (unread s + 2 <= n)%nat.

Lemma keeps_set k v s : keeps s (set_source (dict_set k v (y_source s)) s).
Proof. intros x H. cbn. rewrite dict_mem_set', H. apply orb_true_r. Qed.

Lemma by_name_ok n : forall key s d t, named_inv n s -> dict_get key (y_source s) = Some (d, t) -> imports_by_name t ->
  okm False (named_inv n) keeps (yuparse cx n key) s (fun l s' => Forall (good (fun _ _ _ => True) s') l).
Proof.
  induction n as [|n IH]; intros key s d t [He Hu] D H; [lia|]. cbn [yuparse].
  assert (Ir : forall s, keeps s s) by (intros x k E; exact E).
  assert (It : forall a b c, keeps a b -> keeps b c -> keeps a c) by (intros a b c A B k E; apply B, A, E).
  eapply yuparse_with_ok with (src := t); try exact D; auto.
  - intros m s0 X. split; [exact X|intros k E; exact E].
  - intros _ lib s1 [He1 Hu1]. unfold okm. unfold bind at 1.
    destruct (dict_mem lib (y_source s1)) eqn:M.
    + rewrite (import_known _ _ _ M). destruct n as [|n]; [lia|]. cbn [yuparse]. unfold yuparse_with, bind, get_st. cbv beta iota. destruct He1 as (d1 & E1). rewrite E1.
      cbn. split; [split; [exists d1; exact E1|exact Hu1]|]. split; [apply Ir|constructor].
    + rewrite import_new by (right; exact M). destruct (c_read cx (lib_path cx lib)) as [c|] eqn:R; [|exact I].
      set (s2 := set_source (dict_set lib (DPath (lib_path cx lib), unify_eol c) (y_source s1)) s1).
      assert (N2 : named_inv n s2).
      { split.
        - destruct He1 as (d1 & E1). exists d1. unfold s2. cbn [y_source set_source]. rewrite dict_get_set'. destruct (teqb_spec source_empty lib) as [<-|Nn]; [|exact E1].
          unfold dict_mem in M. rewrite E1 in M. discriminate.
        - assert (unread s2 < unread s1)%nat; [|lia]. apply filter_lt with (x := lib).
          + intros x. unfold s2. cbn [y_source set_source]. rewrite dict_mem_set'. destruct (dict_mem x (y_source s1)); [rewrite orb_true_r; trivial|reflexivity].
          + apply lib_listed. rewrite R. discriminate.
          + rewrite M. reflexivity.
          + unfold s2. cbn [y_source set_source]. rewrite dict_mem_set', teqb_refl. reflexivity. }
      specialize (IH lib s2 (DPath (lib_path cx lib)) (unify_eol c) N2).
      assert (K : okm False (named_inv n) keeps (yuparse cx n lib) s2 (fun l s' => Forall (good (fun _ _ _ => True) s') l)).
      { apply IH; [|eapply clean, R]. unfold s2. cbn [y_source set_source]. rewrite dict_get_set', teqb_refl. reflexivity. }
      unfold okm in K. destruct (yuparse cx n lib s2) as [[l s3]|e|]; try exact K. destruct K as ([K1 K2] & K3 & K4).
      split; [split; [exact K1|lia]|]. split; [|exact K4]. eapply It; [apply keeps_set|exact K3].
  - left. apply named_of_spec, H.
  - split; assumption.
Qed.
Lemma imports_terminate key s d t : has_empty s -> dict_get key (y_source s) = Some (d, t) -> imports_by_name t ->
  exists D, forall n, (D <= n)%nat -> 
  (exists l s', yuparse cx n key s = Ok (l, s')) \/ (exists e, yuparse cx n key s = Err e).
Proof.
  intros He Dk H. exists (unread s + 2)%nat. intros n Hn. 
  pose proof (by_name_ok n key s d t (conj He Hn) Dk H) as K. unfold okm in K.
  destruct (yuparse cx n key s) as [[l s']|e|]; [left; eauto|right; eauto|contradiction].
Qed.
End ByName.
