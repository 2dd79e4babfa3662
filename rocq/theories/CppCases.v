(** * Inclusion of a header the library wrote (proofs only) *)
From Coq Require Import List NArith Bool String Lia ZifyBool ZifyNat ZifyN.
From Verif Require TextSpec.
From Verif Require Import PyStr PyStrFacts Ast LexSpec GuardSpec GuardFinal CppSpec CppFacts.
Import ListNotations.
Open Scope list_scope.
Open Scope N_scope.

Lemma capital_word n N : identifier n -> ~ In 45 n -> Forall2 TextSpec.to_capital n N -> Forall (fun c => c_word c = true) N /\ N <> [].
Proof.
  intros Hn H45 HN. split.
  - assert (Hc : Forall name_char n) by (destruct n as [|c n]; [contradiction|]; destruct Hn as [H1 H2]; constructor; [left; exact H1|exact H2]).
    clear Hn. induction HN as [|c d n N H _ IH]; [constructor|]. inversion Hc as [|? ? H1 H2]; subst. constructor; [|apply IH; [intros Hi; apply H45; right; exact Hi|exact H2]].
    assert (c <> 45) by (intros ->; apply H45; left; reflexivity). unfold TextSpec.to_capital, TextSpec.small, name_char, letter, decimal_digit in *. unfold c_word, c_letter. lia.
  - intros ->. inversion HN; subst. exact Hn.
Qed.
Section Header.
Variables (holds : text -> bool) (n N : text).
Hypothesis Hn : identifier n.
Hypothesis H45 : ~ In 45 n.
Hypothesis HN : Forall2 TextSpec.to_capital n N.
Definition first_time := included_first holds N (proj1 (capital_word n N Hn H45 HN)) (proj2 (capital_word n N Hn H45 HN)).
Definition inside := included_inside holds N (proj1 (capital_word n N Hn H45 HN)) (proj2 (capital_word n N Hn H45 HN)).
Definition again := included_again holds N (proj1 (capital_word n N Hn H45 HN)) (proj2 (capital_word n N Hn H45 HN)).
End Header.
Definition cpp_body : text := lit "int foo_count( void );

struct foo;  /* # */".
Lemma cpp_case :
  ((forall x, cpp_body <> x ++ [92]) /\ Forall (fun l => directive l = None) (lines_of (cpp_body ++ [10]))) /\
  (let '(o, k, D) := includes (fun _ => true) [] (fun _ => false) (lines_of (header (lit "FOO") cpp_body)) in
   filter (fun l => negb (blank_line l)) o = [lit "int foo_count( void );"; lit "struct foo;  /* # */"] /\ k = [] /\ D (lit "FOO_H") = true /\ D (lit "FOO_VAR") = false /\
   fst (fst (includes (fun _ => true) [] D (lines_of (header (lit "FOO") cpp_body)))) = [[]]).
Proof.
  split; [split|].
  - intros x E. assert (L : last cpp_body 0 = 92) by (rewrite E; apply last_last). vm_compute in L. discriminate L.
  - apply Forall_forall. intros l H. vm_compute in H. repeat (destruct H as [<-|H]; [reflexivity|]). destruct H.
  - vm_compute. repeat split.
Qed.
