(** The places an error message names (proofs only). *)
From Coq Require Import List NArith ZArith Bool Lia.
From Coq Require Import ZifyBool ZifyNat ZifyN.
From Verif Require Import PyStr Ast Lex LexSpec Loc LocSpec LocFacts NumFacts TextFacts.
Import ListNotations.
Open Scope N_scope.

Lemma number_digits f i : number f i -> all_digits f = true /\ Z.to_nat (digits_val 10 0 f) = i.
Proof.
  intros (Hne & Hd & Hv). split.
  - unfold all_digits. destruct f as [|c f]; [congruence|]. apply forallb_forall. intros d Hi. rewrite Forall_forall in Hd. apply Hd in Hi.
    unfold decimal_digit in Hi. unfold is_digit. lia.
  - rewrite digits_val_value; [rewrite Hv; apply Nat2Z.id|]. eapply Forall_impl; [|exact Hd]. intros c H. left. exact H.
Qed.
Lemma digits_number f : all_digits f = true -> exists i, number f i.
Proof.
  unfold all_digits. destruct f as [|c f]; [discriminate|]. intros H.
  assert (Hd : Forall decimal_digit (c :: f)).
  { apply Forall_forall. intros d Hi. rewrite forallb_forall in H. apply H in Hi. unfold is_digit in Hi. unfold decimal_digit. lia. }
  exists (Z.to_nat (value 10 (c :: f))). split; [discriminate|]. split; [exact Hd|].
  rewrite Z2Nat.id; [reflexivity|]. rewrite <- digits_val_value; [|eapply Forall_impl; [|exact Hd]; intros x Hx; left; exact Hx].
  assert (G : forall l acc, Forall decimal_digit l -> (0 <= acc)%Z -> (0 <= digits_val 10 acc l)%Z).
  { clear. induction l as [|d l IH]; intros acc Hl Ha; [exact Ha|]. cbn [digits_val]. inversion Hl as [|? ? Hx Hl']; subst.
    apply IH; [exact Hl'|]. assert (0 <= digit_val d)%Z; [|lia]. unfold digit_val, is_digit, decimal_digit in *. repeat match goal with |- context [if ?b then _ else _] => destruct b eqn:? end; lia. }
  apply G; [exact Hd|lia].
Qed.
Lemma line_told t pos n : on_line t pos n -> loc_line t pos = n.
Proof. intros (pre & line & post & Hi & Ho & Hl & ->). apply (loc_line_ok t pos pre line post Hi Ho Hl). Qed.
Lemma loc_chain_step n source calls f pos d t : dict_get f source = Some (d, t) ->
  loc_chain (S n) source calls f pos =
  (if all_digits f then
     let at_ (s : Ast.source) := match s_file s with Some f => loc_chain n source calls f (Z.to_nat (s_pos s)) | None => None end in
     match match nth_error calls (Z.to_nat (digits_val 10 0 f)) with Some (Some c) => at_ c | Some None => Some [] | None => None end,
           match d with DSrc s => at_ s | _ => None end with
     | Some a, Some b => Some (a ++ b ++ [LMacro (decl_name d f) (loc_line t pos)])
     | _, _ => None
     end
   else Some [LFile (decl_name d f) (loc_line t pos)]).
Proof. intros H. cbn [loc_chain]. rewrite H. reflexivity. Qed.
Lemma chain_places source calls f pos l : places source calls f pos l ->
  exists n0, forall n, (n0 <= n)%nat -> loc_chain n source calls f pos = Some l.
Proof.
  induction 1 as [f pos d t name n Hf Hs Hn Hl|f pos i m fm t g fg l1 l2 n Hi Hs Hc Hg _ [n1 IH1] Hm _ [n2 IH2] Hl|f pos i m fm t l2 n Hi Hs Hc Hm _ [n2 IH2] Hl].
  - exists 1%nat. intros [|k] Hk; [lia|]. rewrite (loc_chain_step k _ _ _ _ _ _ Hs).
    destruct (all_digits f) eqn:E; [exfalso; apply Hf, digits_number, E|]. rewrite (line_told _ _ _ Hl). destruct Hn; reflexivity.
  - exists (S (n1 + n2)). intros [|k] Hk; [lia|]. rewrite (loc_chain_step k _ _ _ _ _ _ Hs).
    destruct (number_digits _ _ Hi) as [-> ->]. cbv zeta. rewrite Hc, Hg, Hm, IH1, IH2 by lia. rewrite (line_told _ _ _ Hl). reflexivity.
  - exists (S n2). intros [|k] Hk; [lia|]. rewrite (loc_chain_step k _ _ _ _ _ _ Hs).
    destruct (number_digits _ _ Hi) as [-> ->]. cbv zeta. rewrite Hc, Hm, IH2 by lia. rewrite (line_told _ _ _ Hl). reflexivity.
Qed.

(** ** Case: an error in the second line of the text of a macro, called in line 3 of a file, defined in line 1 *)
Definition place_main : text := lit "($macro m (a) x" ++ 10 :: lit "y)" ++ 10 :: lit "  ($m 1)".
Definition place_body : text := lit "x" ++ 10 :: lit "y".
Definition place_source : list (text * (decl * text)) :=
  [(lit "a.yu", (DPath (lit "src/a.yu"), place_main)); (lit "0", (DSrc (Src (lit "m") (Some (lit "a.yu")) 8), place_body))].
Definition place_calls : list (option Ast.source) := [Some (Src (lit "m") (Some (lit "a.yu")) 23)].
Ltac lf := repeat constructor; vm_compute; discriminate || reflexivity.
Lemma place_case : places place_source place_calls (lit "0") 2 [LFile (lit "src/a.yu") 3; LFile (lit "src/a.yu") 1; LMacro (lit "m") 2].
Proof.
  assert (Hn : ~ exists i, number (lit "a.yu") i). { intros (i & _ & H & _). inversion H as [|? ? H1 _]; subst. destruct H1 as [_ H1]. vm_compute in H1. apply H1. reflexivity. }
  change [LFile (lit "src/a.yu") 3; LFile (lit "src/a.yu") 1; LMacro (lit "m") 2] with ([LFile (lit "src/a.yu") 3] ++ [LFile (lit "src/a.yu") 1] ++ [LMacro (lit "m") 2]).
  apply PL_macro with (i := 0%nat) (m := Src (lit "m") (Some (lit "a.yu")) 8) (t := place_body) (fm := lit "a.yu") (fg := lit "a.yu") (g := Src (lit "m") (Some (lit "a.yu")) 23); try reflexivity.
  - split; [discriminate|]. split; [constructor; [split; vm_compute; discriminate|constructor]|reflexivity].
  - eapply PL_file; [exact Hn|reflexivity|constructor|].
    exists (lit "($macro m (a) x" ++ 10 :: lit "y)" ++ [10]), (lit "  ($m 1)"), []. split; [split; [reflexivity|]|].
    + split; [right; exists (lit "($macro m (a) x" ++ 10 :: lit "y)"); reflexivity|]. split; [vm_compute; intuition discriminate|]. split; [left; reflexivity|cbn; lia].
    + split; [lf|]. split; [discriminate|reflexivity].
  - eapply PL_file; [exact Hn|reflexivity|constructor|].
    exists [], (lit "($macro m (a) x"), (10 :: lit "y)" ++ 10 :: lit "  ($m 1)"). split; [split; [reflexivity|]|].
    + split; [left; reflexivity|]. split; [vm_compute; intuition discriminate|]. split; [right; eexists; reflexivity|cbn; lia].
    + split; [lf|]. split; [discriminate|reflexivity].
  - exists (lit "x" ++ [10]), (lit "y"), []. split; [split; [reflexivity|]|].
    + split; [right; exists (lit "x"); reflexivity|]. split; [vm_compute; intuition discriminate|]. split; [left; reflexivity|cbn; lia].
    + split; [lf|]. split; [discriminate|reflexivity].
Qed.
