(** * The source file is none of the files a run writes *)
From Coq Require Import String List NArith ZArith Bool Lia ZifyBool ZifyNat ZifyN.
From Verif Require Import PyStr PyStrFacts Ast Shell ShellSpec ShellFacts ShellFacts2 Pp PpCases Eval RunCases.
Import ListNotations.
Open Scope N_scope.

(** a text with a dot has one last dot *)
Lemma last_dot (a b x y : text) : ~ In 46 x -> ~ In 46 y -> a ++ 46 :: x = b ++ 46 :: y -> a = b /\ x = y.
Proof.
  intros Hx Hy. revert b. induction a as [|c a IH]; intros [|d b] E; cbn [app] in E.
  - injection E as E. auto.
  - injection E as <- E. exfalso. apply Hx. rewrite E. apply in_or_app. right. left. reflexivity.
  - injection E as -> E. exfalso. apply Hy. rewrite <- E. apply in_or_app. right. left. reflexivity.
  - injection E as <- E. apply IH in E as [-> ->]. auto.
Qed.
Lemma no_dot_end (a b x : text) : a ++ 46 :: b = x -> ~ In 46 x -> False.
Proof. intros <- H. apply H, in_or_app. right. left. reflexivity. Qed.

Section Names.
Variables (dir fn : text).
Let out := output_fn dir fn.
Let base := match dir with [] => fn | _ => path_join dir (basename fn) end.

(** the names of the backup and of the browse file *)
Lemma suffix_not_input x : ~ In 46 x -> ~ In 47 x -> x <> [] -> re_e_yu (46 :: x) = None -> basename (out ++ 46 :: x) <> basename fn.
Proof.
  intros Hd Hs Hne Hy E. rewrite basename_app in E by (intros [H|H]; [discriminate|exact (Hs H)]).
  rewrite <- (output_base dir fn) in E. unfold out, output_fn in E. fold base in E.
  assert (Hb := splitext_app base). assert (Hx := ext_simple base). assert (Hr := splitext_ext base).
  destruct (splitext base) as [o e]. cbn [fst snd] in *. clearbody base. subst base.
  rewrite (basename_app o e Hx) in E.
  destruct e as [|c e].
  - rewrite basename_app in E by (vm_compute; intuition discriminate). rewrite <- app_assoc in E. apply app_inv_head in E. discriminate.
  - destruct (Hr ltac:(discriminate)) as (r & Ec & H1 & _). change c_dot with 46 in *. injection Ec as -> ->.
    apply last_dot in E as [E ->]; [|exact Hd|exact H1]. rewrite Hy in E.
    rewrite basename_app in E.
    + assert (L := f_equal (@List.length N) E). rewrite !app_length in L. cbn [List.length] in L. lia.
    + intros H. apply in_app_or in H as [H|H]; [vm_compute in H; intuition discriminate|exact (Hx H)].
Qed.

(** the name of the dump of a failed run *)
Lemma ast_not_input : basename (fst (splitext out) ++ e_ast) <> basename fn.
Proof.
  intros E. rewrite basename_app in E by (vm_compute; intuition discriminate).
  rewrite <- (output_base dir fn) in E. fold base in E.
  assert (Hq := splitext_app out). assert (Hqx := ext_simple out). assert (Hqr := splitext_ext out).
  destruct (splitext out) as [q x]. cbn [fst snd] in *.
  assert (Hxd : forall a b, x <> a :: b ++ 46 :: e_ast /\ x <> e_ast ++ 46 :: b).
  { intros a b. destruct x as [|c x]; [split; discriminate|]. destruct (Hqr ltac:(discriminate)) as (r & Ec & H1 & _). injection Ec as -> ->.
    change c_dot with 46 in *. split; intros E'.
    - injection E' as <- E'. symmetry in E'. exact (no_dot_end _ _ _ E' H1).
    - change e_ast with [46; 97; 115; 116] in E'. cbn [app] in E'. injection E' as E'. subst r. apply H1. do 3 right. left. reflexivity. }
  unfold out, output_fn in Hq. fold base in Hq.
  assert (Hb := splitext_app base). assert (Hx := ext_simple base). assert (Hr := splitext_ext base).
  destruct (splitext base) as [o e]. cbn [fst snd] in *. clearbody base. subst base.
  rewrite (basename_app o e Hx) in E.
  assert (Hqb : forall z, simple z -> q ++ x = o ++ z -> basename q ++ x = basename o ++ z).
  { intros z Hz E'. rewrite <- (basename_app q x Hqx), E'. apply basename_app, Hz. }
  destruct e as [|c e].
  - rewrite app_nil_r in E. apply Hqb in Hq; [|vm_compute; intuition discriminate]. rewrite <- E, <- app_assoc in Hq. apply app_inv_head in Hq.
    destruct (Hxd 0 (lit "yugen")) as [_ H]. exact (H Hq).
  - destruct (Hr ltac:(discriminate)) as (r & Ec & H1 & _). change c_dot with 46 in *. injection Ec as -> ->.
    change e_ast with (46 :: [97; 115; 116]) in E.
    apply last_dot in E as [E <-]; [|vm_compute; intuition discriminate|exact H1].
    change (re_e_yu (46 :: [97; 115; 116])) with (@None (option text)) in Hq. cbn iota in Hq. apply Hqb in Hq; [|vm_compute; intuition discriminate].
    rewrite E in Hq. apply app_inv_head in Hq. rewrite Hq in Hqr. destruct (Hqr ltac:(discriminate)) as (r & Ec & H & _).
    assert (Ec' : r = tl (e_yugen ++ 46 :: [97; 115; 116])) by (rewrite Ec; reflexivity). subst r. apply H. vm_compute. intuition.
Qed.
End Names.

Lemma same_name (a b : text) : basename a <> basename b -> b <> a.
Proof. intros H ->. exact (H eq_refl). Qed.

Lemma source_kept pp dir read now ro fn fates s res s' st :
  (forall t n, read s fn = Some t -> p_output (pp t fn (output_fn dir fn)) = Some n -> n = [] \/ fn <> n /\ fn <> n ++ lit ".bak" /\ fn <> n ++ lit ".json") ->
  pp_file pp dir read now ro fn fates s = Some (res, s', st) -> s' fn = s fn.
Proof.
  intros Ho E. unfold pp_file in E. destruct (read s fn) as [t|] eqn:Er; [|discriminate]. specialize (Ho t).
  set (r := pp t fn (output_fn dir fn)) in *. injection E as E.
  assert (K : snd (fst (pp_stream now ro r (output_fn dir fn) fates s)) fn = s fn); [|rewrite E in K; exact K].
  destruct (p_ok r) eqn:Hok.
  - assert (N : fn <> stream_fn r (output_fn dir fn) /\ fn <> stream_fn r (output_fn dir fn) ++ lit ".bak" /\ fn <> stream_fn r (output_fn dir fn) ++ lit ".json").
    { unfold stream_fn. rewrite Hok.
      assert (D : fn <> output_fn dir fn /\ fn <> output_fn dir fn ++ lit ".bak" /\ fn <> output_fn dir fn ++ lit ".json").
      { split; [apply same_name, output_not_input|]. split; apply same_name; [change (lit ".bak") with (46 :: lit "bak")|change (lit ".json") with (46 :: lit "json")];
          (apply suffix_not_input; [vm_compute; intuition discriminate|vm_compute; intuition discriminate|discriminate|reflexivity]). }
      destruct (p_output r) as [[|c n]|] eqn:Eo; [exact D| |exact D]. destruct (Ho _ eq_refl eq_refl) as [H|H]; [discriminate|exact H]. }
    destruct N as (N1 & N2 & N3). apply others_kept; assumption.
  - apply failed_keeps; [exact Hok|]. change (lit ".ast") with e_ast. apply same_name, ast_not_input.
Qed.

(** ** Case: a source that names itself as its output *)
Definition self_source : text := lit "($set __OUTPUT_FILE__ [a.yu-c])x".
Definition plain_source : text := lit "($set a [y])($a)".
Definition run_of (t fn fn_o : text) : ppres :=
  match pp world0 run_config 1 60 t (Some fn) (Some fn_o) process0 with Ok r => r | _ => failed [] end.
Definition contents_of (s : fs) (fn : text) : option text := option_map f_data (s fn).
Definition one_file (t : text) : fs := fs_set (lit "a.yu-c") (Some (File t 1 false)) (fun _ => None).
Lemma self_overwritten : exists res s', pp_file run_of [] contents_of 5 false (lit "a.yu-c") [] (one_file self_source) = Some (res, s', Completed) /\
  holds (one_file self_source) (lit "a.yu-c") self_source /\ holds s' (lit "a.yu-c") (lit "x") /\ holds s' (lit "a.yu-c.bak") self_source.
Proof.
  assert (R : run_of self_source (lit "a.yu-c") (lit "a.c") = PP true (lit "x") None (Some (lit "a.yu-c")) false 0) by (vm_compute; reflexivity).
  unfold pp_file. change (contents_of (one_file self_source) (lit "a.yu-c")) with (Some self_source). cbn iota.
  change (output_fn [] (lit "a.yu-c")) with (lit "a.c"). cbv zeta. rewrite R. eexists _, _. split; [unfold pp_stream; vm_compute; reflexivity|].
  split; [|split]; eexists; split; vm_compute; reflexivity.
Qed.
Lemma plain_kept : exists res s', pp_file run_of [] contents_of 5 true (lit "a.yu-c") [] (one_file plain_source) = Some (res, s', Completed) /\
  (forall t n, contents_of (one_file plain_source) (lit "a.yu-c") = Some t -> p_output (run_of t (lit "a.yu-c") (output_fn [] (lit "a.yu-c"))) = Some n ->
    n = [] \/ lit "a.yu-c" <> n /\ lit "a.yu-c" <> n ++ lit ".bak" /\ lit "a.yu-c" <> n ++ lit ".json") /\
  holds s' (lit "a.c") (lit "y") /\ holds s' (lit "a.yu-c") plain_source.
Proof.
  assert (R : run_of plain_source (lit "a.yu-c") (lit "a.c") = PP true (lit "y") None None false 0) by (vm_compute; reflexivity).
  unfold pp_file. change (contents_of (one_file plain_source) (lit "a.yu-c")) with (Some plain_source). cbn iota.
  change (output_fn [] (lit "a.yu-c")) with (lit "a.c"). cbv zeta. rewrite R. eexists _, _. split; [unfold pp_stream; vm_compute; reflexivity|].
  split; [|split]; [|eexists; split; vm_compute; reflexivity|eexists; split; vm_compute; reflexivity].
  intros t n [= <-]. rewrite R. discriminate.
Qed.
