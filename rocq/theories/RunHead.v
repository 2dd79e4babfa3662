(** Runs over a Python source with a magic comment and constructs behind it (proofs only). *)
From Coq Require Import List NArith ZArith Bool String Lia ZifyBool ZifyNat ZifyN.
From Verif Require Import PyStr PyStrFacts Ast Lex LexSpec LexFacts LexFacts2 Parse ParseSpec ParseFacts Final Eval EnvSpec EvalSpec EvalMono EvalFacts EvalFacts2 EvalFacts3 PpSpec PpFacts PpFacts2 HeaderFacts Shell Pp CodecFacts PpCases ProtectSpec ProtectCases ExprSpec ExprFacts ExprFacts2 ExprFacts3 DocSpec DocFacts CoreSpec CoreFacts RunSpec RunFacts RunFacts2 RunCases.
Import ListNotations.
Open Scope list_scope.
Open Scope N_scope.

Lemma tree_of_document cx d key p t c s : document (c_python cx) (c_skip cx) t c -> t <> [] ->
  exists l, text_tree cx d (Src t (Some key) p) s = Ok (l, s) /\ stands_for l c.
Proof.
  intros P Nt. destruct t as [|a t]; [congruence|]. set (t1 := a :: t) in *. unfold text_tree. cbn [s_txt].
  change (List.length t1) with (S (List.length t)).
  destruct (drive_doc cx (yuparse cx d) (knot cx (yuparse cx d) (S (List.length t))) (S (List.length t))
    (fun e u W L => knot_reads cx _ (List.length t) e u W (le_S_n _ _ L)) (knot_close cx _ (List.length t))
    (fun dl u x Dk W L => knot_texts cx _ (List.length t) dl u x Dk W (le_S_n _ _ L)) DSource [] (conj (fun _ => eq_refl) Logic.I) (Some key)
    (knot cx (yuparse cx d) (S (S (List.length t)))) c (S (S (List.length t1)))) with (g := text_start (Src t1 (Some key) p)) (s := s) (t := t1) as (q & g & E & S1).
  - reflexivity.
  - exact Logic.I.
  - exists [], c. cbn [text_start tg_ast tg_started tg_sou s_txt s_file tg_sq]. split; [reflexivity|]. split; [split; [reflexivity|left; reflexivity]|]. repeat split; [|exact P]. cbn [closing app]. rewrite app_nil_r. reflexivity.
  - discriminate.
  - unfold t1. cbn. lia.
  - cbn [text_start tg_started]. lia.
  - unfold drive_text. cbn [s_txt]. change (List.length t1) with (S (List.length t)) at 1. cbn [stop_of] in E. rewrite (bind_ok _ _ _ _ _ E). eexists. split; [reflexivity|exact S1].
Qed.
(** the pieces of a header: remarks and line ends *)
Definition mark (x : node) : Prop := match x with NRemark _ | NSource _ | NNone => True | _ => False end.
Lemma loop_marks ln : forall hd rest r hd' n, Forall mark hd -> header_loop ln hd rest = Some (r, hd', n) -> Forall mark hd'.
Proof.
  induction ln as [|ln IH]; intros hd rest r hd' n H E; cbn [header_loop] in E; [discriminate|].
  destruct (ps_remark_python _) as [rest1 [leg|]]; [|discriminate].
  destruct (coding_search (s_txt leg)) as [[|]|].
  - inversion E; subst. apply Forall_app. split; [exact H|]. repeat constructor.
  - inversion E; subst. exact H.
  - destruct (ps_eol rest1) as [rest2 [e|]]; eapply IH; try exact E; apply Forall_app; (split; [exact H|repeat constructor]).
Qed.
Lemma header_marks sou s r hd s' : ps_header_python sou s = Ok (r, Some hd, s') -> Forall mark hd.
Proof.
  unfold ps_header_python. destruct (ps_eol _) as [rest eol]. destruct (header_loop _ [] rest) as [[[r1 h1] n1]|] eqn:E; [|intros X; discriminate X].
  unfold bind, modify, ret. intros X. inversion X; subst. eapply loop_marks; [|exact E]. constructor.
Qed.
Definition headed (l : list node) : Prop := match l with [] => True | NRemark r :: _ => s_txt r <> [] | _ => False end.
Lemma remark_hash sou r leg : ps_remark_python sou = (r, Some leg) -> exists w, s_txt leg = 35 :: w.
Proof.
  unfold ps_remark_python. destruct (sis ch_hash sou) eqn:E; [|discriminate]. intros H. inversion H; subst. clear H.
  unfold sis in E. unfold sto. cbn [s_txt]. destruct (s_txt sou) as [|c t]; [discriminate E|]. cbn [Nat.add firstn].
  apply N.eqb_eq in E. subst c. eexists. reflexivity.
Qed.
Lemma encoding_headed leg w : s_txt leg = 35 :: w -> coding_search (s_txt leg) <> None -> headed (header_encoding leg).
Proof.
  intros E C. unfold header_encoding, headed. cbn [s_txt]. rewrite E in *.
  destruct w as [|x w]; [exfalso; apply C; reflexivity|].
  destruct (find_sub _ _) as [i|] eqn:F.
  - apply find_sub_some in F as (Li & F & _). destruct i as [|i]; [discriminate F|].
    unfold py_to, norm_index. destruct (Z.ltb_spec (Z.of_nat (S i)) 0) as [X|_]; [lia|].
    rewrite Nat2Z.id. cbn [List.length] in *. destruct (Nat.min _ _) as [|k] eqn:K; [lia|]. discriminate.
  - unfold py_to, norm_index. cbn [List.length]. change ((-1 <? 0)%Z) with true. cbv iota.
    destruct (Z.to_nat _) as [|k] eqn:K; [lia|]. discriminate.
Qed.
Lemma headed_app a b : headed a -> headed b -> headed (a ++ b).
Proof. destruct a as [|x a]; [intros _ H; exact H|]. intros H _. destruct x; try (destruct H; fail); exact H. Qed.
Lemma loop_headed ln : forall hd rest r hd' n, headed hd -> header_loop ln hd rest = Some (r, hd', n) -> headed hd'.
Proof.
  induction ln as [|ln IH]; intros hd rest r hd' n H E; cbn [header_loop] in E; [discriminate|].
  destruct (ps_remark_python _) as [rest1 [leg|]] eqn:Er; [|discriminate]. apply remark_hash in Er as [w Ew].
  destruct (coding_search (s_txt leg)) as [[|]|] eqn:Ec.
  - inversion E; subst. apply headed_app; [exact H|]. apply (encoding_headed leg w Ew). congruence.
  - inversion E; subst. exact H.
  - destruct (ps_eol rest1) as [rest2 [e|]]; eapply IH; try exact E; apply headed_app; try exact H; cbn [headed]; rewrite Ew; discriminate.
Qed.
Lemma header_headed sou s r hd s' : ps_header_python sou s = Ok (r, Some hd, s') -> headed hd.
Proof.
  unfold ps_header_python. destruct (ps_eol _) as [rest eol]. destruct (header_loop _ [] rest) as [[[r1 h1] n1]|] eqn:E; [|intros X; discriminate X].
  unfold bind, modify, ret. intros X. inversion X; subst. eapply loop_headed; [|exact E]. exact Logic.I.
Qed.
Lemma kept_none hd kept : spells hd kept -> headed hd -> match kept with [] => hd = [] | _ => hd <> [] end.
Proof.
  intros S H. destruct S as [|x l w t P S]; [reflexivity|]. destruct w as [|c w].
  - exfalso. inversion P; subst; cbn [headed s_txt] in H; try (destruct H; fail). apply H. reflexivity.
  - discriminate.
Qed.
Lemma marks_block ec parse hd kept : spells hd kept -> Forall mark hd -> forall ind l e s w e' s',
  block ec parse (match hd with [] => ind | _ => IndFalse end) l e s w e' s' ->
  block ec parse ind (hd ++ l) e s (hd ++ w) e' s'.
Proof.
  induction 1 as [|x hd v t P S IH]; intros M ind l e s w e' s' B; [exact B|].
  inversion M as [|x0 l0 Mx Mr]; subst. cbn [app].
  assert (V : evals ec parse x e s x e s /\ piece x x /\ as_applied ind x x = x /\ indent_then ind x = IndFalse /\ x <> NComment).
  { inversion P; subst; try destruct Mx; (split; [exists 1%nat; reflexivity|]);
      (split; [apply PC_value; exact Logic.I|]); (split; [reflexivity|]); (split; [reflexivity|discriminate]). }
  destruct V as (V1 & V2 & V3 & V4 & V5).
  pose proof (BL_value ec parse ind x (hd ++ l) e s x e s x (hd ++ w) e' s' V5 V1 V2) as K.
  rewrite V3, V4 in K. apply K. apply IH; [exact Mr|]. destruct hd; exact B.
Qed.

Lemma parse_header_document cx d s decl t kept rest n c : c_python cx = true -> header is_word t kept rest n -> rest <> [] ->
  document (c_python cx) (c_skip cx) rest c -> runs true [] c <> [] ->
  dict_get (c_main cx) (y_source s) = Some (decl, t) ->
  exists hd l, spells hd kept /\ Forall mark hd /\ headed hd /\ stands_for l c /\ yuparse cx (S d) (c_main cx) s = Ok (hd ++ l, set_shrink n s).
Proof.
  intros P H R Hd Hc D. destruct (header_read t kept rest n (c_main cx) s H) as (hd & E & S).
  pose proof (header_marks _ _ _ _ _ E) as M. pose proof (header_headed _ _ _ _ _ E) as M'.
  destruct (tree_of_document cx d (c_main cx) (Z.of_nat (List.length t - List.length rest)) rest c (set_shrink n s) Hd R) as (l & El & Hl).
  exists hd, l. repeat (split; [assumption|]).
  assert (Nt : t <> []). { destruct H; intros Z0; apply (f_equal (@List.length BinNums.N)) in Z0; rewrite !app_length in Z0; cbn in Z0; rewrite ?app_length in Z0; destruct rest; cbn in Z0; try congruence; lia. }
  cbn [yuparse]. unfold yuparse_with. unfold bind at 1, get_st. rewrite D. destruct t as [|c0 t]; [congruence|].
  rewrite teqb_refl, P. cbn [andb]. unfold bind at 1. rewrite E. cbn [s_txt]. destruct rest as [|c1 rest]; [congruence|].
  unfold text_tree, bind, ret in El. cbn [s_txt] in El. unfold bind. 
  destruct (drive_text _ _ _ _) as [[[r g] s']|e|]; try discriminate El. cbn in El. inversion El; subst. unfold ret.
  destruct (tg_ast g) as [|x0 l0] eqn:Eg; [|reflexivity].
  exfalso. apply Hc. rewrite <- Hl. reflexivity.
Qed.

Lemma document_runs python m t c : document python m t c -> t <> [] -> runs true [] c <> [].
Proof. intros H N E. apply runs_nil in E. subst c. inversion H; congruence. Qed.
Lemma header_document_run w cfg d t t' kept rest ln c out fb input output pr :
  unified t t' -> is_python output = true -> header is_word t' kept rest ln -> rest <> [] ->
  document true (skip_of cfg true) rest c -> k_browse cfg = false ->
  page (run_ectx w cfg input output pr) [] (behind kept) untold (runs true [] c) out fb ->
  exists n0, forall n, (n0 <= n)%nat -> pp w cfg (S d) n t input output pr =
    Ok (PP true (replace_steady (reduce_emptiness (k_reduce cfg) (kept ++ out))) None (f_output fb) (f_repeat fb) ln).
Proof.
  intros Hu Py Hh Hr Hd Hb Hp. pose proof (document_runs _ _ _ _ Hd Hr) as Hc. assert (Et : unify_eol t = t') by (eapply unified_fun; [apply unify_eol_unified|exact Hu]).
  set (cx := run_ctx w cfg input output). set (s0 := run_start t input output pr). set (ec := run_ectx w cfg input output pr) in *.
  destruct (parse_header_document cx d s0 (match input with Some p => DPath p | None => DNone end) t' kept rest ln c) as (hd & l & H1 & H2 & H3 & H4 & H5); try assumption.
  - cbn [cx run_ctx c_python c_skip]. rewrite Py. exact Hd.
  - unfold s0, run_start. cbn [y_source cx run_ctx c_main]. rewrite dict_get_set', teqb_refl, Et. reflexivity.
  - change (c_main cx) with (input_key input) in H5.
    pose proof (kept_none hd kept H1 H3) as Hk.
    destruct (page_block ec (yuparse cx (S d)) Hb (source_parses cx d) _ _ _ _ _ _ Hp l [] (set_shrink ln s0) H4 (EN_nil _ _) eq_refl) as (ws & s' & B1 & B2 & B3 & B4 & B5).
    assert (B1' : block ec (yuparse cx (S d)) (IndStr []) (hd ++ l) [] (set_shrink ln s0) (hd ++ ws) [] s').
    { apply (marks_block ec _ hd kept H1 H2). destruct kept; [rewrite Hk; exact B1|]. destruct hd; [congruence|exact B1]. }
    assert (K : evals ec (yuparse cx (S d)) (NT (hd ++ l) (IndStr [])) [] (set_shrink ln s0) (NRaw (kept ++ out)) [] s').
    { apply text_spec; [exact Hb|]. eexists. split; [exact B1'|]. cbn [is_term]. rewrite forallb_app, (spells_term hd kept H1), B2. cbn [andb plain].
      rewrite map_app, concat_app, (spells_plain ec hd kept H1), B3. reflexivity. }
    destruct K as [n0 K]. exists (S n0). intros n Hn. unfold pp. fold cx s0 ec. rewrite H5.
    match goal with |- context [yueval ?a ?b n ?x ?y ?z] => replace (yueval a b n x y z) with (Ok (NRaw (kept ++ out), @nil frame, s')) end.
    + cbn [output_of str_of option_map final output_text]. rewrite <- B4. rewrite B5. reflexivity.
    + symmetry. rewrite (more_budget _ _ (S n0) n); [exact K|lia|].
      intros X. pose proof (eq_trans (eq_sym K) X) as Y. discriminate Y.
Qed.
