(** Small lemmas closing the statements of Properties_Lex (proofs only). *)
From Coq Require Import List NArith ZArith Bool Lia.
From Coq Require Import ZifyBool ZifyNat ZifyN.
From Verif Require Import PyStr Ast Lex Parse PyStrFacts LexSpec LexFacts LexFacts2 NumFacts.
Import ListNotations.
Open Scope N_scope.

Lemma space_run_spec a rest f p :
  Forall blank a -> stops_at blank rest ->
  ps_space (Src (a ++ rest) f p)
  = (Src rest f (p + Z.of_nat (length a)), match a with [] => None | _ => Some (Src a f p) end).
Proof. intros Ha Hr. rewrite ps_space_run by assumption. destruct a; reflexivity. Qed.
Lemma gap_run_spec a rest f p :
  Forall white a -> stops_at white rest ->
  ps_gap (Src (a ++ rest) f p)
  = (Src rest f (p + Z.of_nat (length a)), match a with [] => None | _ => Some (Src a f p) end).
Proof. intros Ha Hr. rewrite ps_gap_run by assumption. destruct a; reflexivity. Qed.
Lemma unify_no_cr s : ~ In 13 (unify_eol s).
Proof. exact (unified_no_cr _ _ (unify_eol_unified s)). Qed.
Lemma unify_lines s : line_ends (unify_eol s) = line_ends s.
Proof. exact (unified_lines _ _ (unify_eol_unified s)). Qed.

(** deciding the hypotheses on concrete texts *)
Lemma permitted_dec s : forallb ps_ANY s = true -> Forall permitted s.
Proof. apply (forallb_Forall ps_ANY permitted _ ps_ANY_spec). Qed.
Lemma white_dec s : forallb (fun c => ps_EOL c || ps_SPACE c) s = true -> Forall white s.
Proof. apply (forallb_Forall _ white _ white_spec). Qed.
Fixpoint nestb (d : nat) (s : text) : bool :=
  match s with
  | [] => Nat.eqb d 0
  | c :: r => if c =? 40 then nestb (S d) r
              else if c =? 41 then match d with S d' => nestb d' r | O => false end
              else nestb d r
  end.
Lemma nestb_ok s : forall d, nestb d s = true -> nesting d s 0.
Proof.
  induction s as [|c s IH]; intros d; cbn [nestb].
  - intros E. apply Nat.eqb_eq in E; subst. constructor.
  - destruct (c =? 40) eqn:E1; [|destruct (c =? 41) eqn:E2].
    + apply N.eqb_eq in E1; subst. intros H. constructor. auto.
    + apply N.eqb_eq in E2; subst. destruct d as [|d]; [discriminate|]. intros H. constructor. auto.
    + apply N.eqb_neq in E1, E2. intros H. constructor; auto.
Qed.
Lemma balanced_dec s : nestb 0 s = true -> balanced s.
Proof. apply nestb_ok. Qed.
Definition identb (s : text) : bool :=
  match s with c :: r => ps_LETTER c && forallb (fun c => ps_LETTER c || ps_FIGURE c) r | [] => false end.
Lemma identifier_dec s : identb s = true -> identifier s.
Proof.
  destruct s as [|c s]; [discriminate|]. cbn [identb identifier]. intros H.
  apply andb_true_iff in H as [H1 H2]. split; [apply ps_LETTER_spec, H1|].
  apply (forallb_Forall _ name_char _ name_char_spec), H2.
Qed.
Lemma stops_dec (p : char -> bool) (P : char -> Prop) s :
  (forall c, p c = true <-> P c) -> match s with [] => true | c :: _ => negb (p c) end = true -> stops_at P s.
Proof.
  intros H. destruct s as [|c s]; [exact (fun _ => I)|]. cbn. rewrite <- H. destruct (p c); cbn; congruence.
Qed.
Fixpoint occb (p s : text) : bool :=
  startswith p s || match s with [] => false | _ :: r => occb p r end.
Lemma not_occurs_dec p s : occb p s = false -> ~ occurs p s.
Proof.
  intros H (a & b & ->). induction a as [|c a IH].
  - cbn [app] in H. destruct (p ++ b) eqn:E; cbn [occb] in H; apply orb_false_iff in H as [H _];
    rewrite <- E, startswith_app in H; discriminate.
  - apply IH. cbn [app occb] in H. apply orb_false_iff in H as [_ H]. exact H.
Qed.

Lemma atom_case :
  identifier (lit "long-name_2") /\ stops_at name_char (lit ")x") /\
  ps_atom (Src (lit "long-name_2)x") None 7)
  = (Src (lit ")x") None 18, Some (Src (lit "long-name_2") None 7)).
Proof.
  split; [apply identifier_dec; reflexivity|]. split; [|reflexivity].
  apply (stops_dec _ _ _ name_char_spec). reflexivity.
Qed.
Lemma number_case :
  sign_of (lit "-") Z.opp /\ int_literal (lit "0x1Fe") 510 /\ long_suffix (lit "L") /\ number_ends (lit ") 9") /\
  ps_number (Src (lit "-0x1FeL) 9") None 3) = Ok (Src (lit ") 9") None 10, Some (NInt (-510)%Z)).
Proof.
  split; [exact sg_minus|]. split; [|split; [right; right; reflexivity|split; [|reflexivity]]].
  - change 510%Z with (value 16 (lit "1Fe")).
    apply (il_hex 120 49 (lit "Fe")); [left; reflexivity|unfold hex_digit, decimal_digit; lia|].
    apply (forallb_Forall is_hex hex_digit _ is_hex_spec). reflexivity.
  - split; [change (lit ") 9") with [41; 32; 57]; cbn; unfold letter, decimal_digit; lia|discriminate].
Qed.
Lemma comment_case :
  Forall permitted (lit " ($set a (b)) ' ") /\ balanced (lit " ($set a (b)) ' ") /\
  ps_comment (Src (lit "($! ($set a (b)) ' )end)") None 0) = Ok (Src (lit "end)") None 20, Some NComment).
Proof. split; [apply permitted_dec|split; [apply balanced_dec|]]; reflexivity. Qed.
Lemma quote_case :
  Forall permitted (lit " ($x) () ") /\ balanced (lit " ($x) () ") /\
  ps_quote false (Src (lit "(` ($x) () )+") None 0)
  = Ok (Src (lit "+") None 12, Some (NStr (Src (lit " ($x) () ") None 2))).
Proof. split; [apply permitted_dec|split; [apply balanced_dec|]]; reflexivity. Qed.
Lemma macro_case :
  let ps := [(lit "a", lit " "); (lit "b", [])] in
  params_ok ps /\ identifier (lit "m") /\ balanced (lit " ($a)+(($b)) ") /\
  ps_macro (Src (lit "($macro m (a b) ($a)+(($b)) )!") None 0)
  = Ok (Src (lit "!") None 29,
        Some (NMacro (Src (lit "m") None 8) [Src (lit "a") None 11; Src (lit "b") None 13]
                     (lit " ($a)+(($b)) "))).
Proof.
  split; [|split; [apply identifier_dec; reflexivity|split; [apply balanced_dec; reflexivity|vm_compute; reflexivity]]].
  cbn [params_ok].
  split; [apply identifier_dec; reflexivity|]. split; [apply white_dec; reflexivity|].
  split; [right; discriminate|]. split; [apply identifier_dec; reflexivity|].
  split; [constructor|]. split; [left; reflexivity|exact I].
Qed.
Lemma remark_case :
  ~ occurs (lit "*/") (lit " ($set x 1) " ++ lit "*") /\
  ps_remark_c (Src (lit "/* ($set x 1) */*/") None 0)
  = Ok (Src (lit "*/") None 16, Some (NRemark (Src (lit "/* ($set x 1) */") None 0))).
Proof. split; [apply not_occurs_dec; reflexivity|reflexivity]. Qed.

Lemma number_bad s :
  In s [lit "0755"; lit "- 5"; lit "0xFFLL"] ->
  re_INT s = Some (length s) /\ exists msg, ps_number (Src s None 0) = Err (Exn ValueError msg).
Proof. intros [<-|[<-|[<-|[]]]]; (split; [reflexivity|eexists; vm_compute; reflexivity]). Qed.
