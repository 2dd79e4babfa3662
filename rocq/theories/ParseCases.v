(** * Concrete cases for the statements about the parser *)
From Coq Require Import List NArith ZArith Bool Lia ZifyBool ZifyNat ZifyN.
From Verif Require Import PyStr PyStrFacts Ast Lex LexSpec LexFacts Parse ParseSpec ParseFacts ParseFacts2 ParseFacts3 ParseFacts4 ParseFacts5 EnvSpec EnvFacts CodecFacts.
Import ListNotations.
Open Scope N_scope.
Open Scope monad_scope.

(** A session: a directory of files and a main text registered under its name.  *)
Definition disk_of (files : list (String.string * String.string)) (p : text) : option text :=
  match find (fun x => teqb (lit (fst x)) p) files with Some x => Some (lit (snd x)) | None => None end.
Definition session (files : list (String.string * String.string)) : pctx :=
  Ctx false SkipNone (lit "main.yu") [] (disk_of files) (fun t => t) (fun _ => Ok tt)
      (fun code => Ok code) (fun _ => []).
Definition started (main : String.string) : yst :=
  St [(source_empty, (DPath source_empty, [])); (lit "main.yu", (DPath (lit "main.yu"), lit main))]
     [] [] 0 [] [] None false [] [] [].

(** deep nesting: [n] unclosed or closed lists *)
Fixpoint deep (n : nat) : text := match n with O => lit "x" | S m => lit "[($ " ++ deep m end.

Definition ring : list (String.string * String.string) :=
  [("a.yu", "A($import b)"); ("b.yu", "B($import a)($import c)"); ("c.yu", "C($import a)($import b)($import main)")]%string.
Definition ring_main : String.string := "($import a) ($import b) ($import
 c )!"%string.

(** Two libraries that import each other with quoted names. *)
Definition quoted_ring : list (String.string * String.string) := [("a.yu", "($import ""a.yu"")")]%string.
Definition quoted_state : yst :=
  St [(source_empty, (DPath source_empty, [])); (lit "a.yu", (DPath (lit "a.yu"), lit "($import ""a.yu"")"))]
     [] [] 0 [] [] None false [] [] [].
Ltac stuck_in :=
  match goal with
  | |- ?l = _ => let l' := eval hnf in l in
      match l' with
      | match ?d with _ => _ end => change (l' = Fuel); cut (d = Fuel); [let H := fresh in intros H; rewrite H; reflexivity|]
      end
  end.
Lemma quoted_step (imp : text -> M (list node)) : imp (lit "a.yu") quoted_state = Fuel ->
  yuparse_with (session quoted_ring) imp (lit "a.yu") quoted_state = Fuel.
Proof.
  intros E. do 40 try stuck_in.
  match goal with |- imp ?a ?s = _ =>
    replace (imp a s) with (imp (lit "a.yu") quoted_state) by (f_equal; vm_compute; reflexivity) end.
  exact E.
Qed.
Lemma quoted_cycle n : yuparse (session quoted_ring) n (lit "a.yu") quoted_state = Fuel.
Proof. induction n as [|n IH]; [reflexivity|]. cbn [yuparse]. apply quoted_step, IH. Qed.


(** A test for [imports_by_name] *)
Definition wsb (c : char) : bool := ps_EOL c || ps_SPACE c.
Fixpoint by_name_b (t : text) : bool :=
  match t with
  | [] => true
  | _ :: r =>
      (if startswith ps_IMPORT t then
         match skipn (span_len wsb (skipn 8 t)) (skipn 8 t) with c :: _ => ps_LETTER c | [] => false end
       else true) && by_name_b r
  end.
Lemma by_name_b_spec t : by_name_b t = true -> imports_by_name t.
Proof.
  intros B a g r ->. revert B. induction a as [|c a IH]; intros B Wg Sr.
  - cbn [app] in B. change (lit "($import" ++ g ++ r) with (40 :: skipn 1 (lit "($import") ++ g ++ r) in B. cbn [by_name_b] in B.
    apply andb_prop in B. destruct B as [B _].
    change (startswith ps_IMPORT _) with true in B. cbv iota in B.
    change (skipn 8 _) with (g ++ r) in B.
    assert (L : span_len wsb (g ++ r) = length g).
    { apply (longest_run_len wsb white (g ++ r) g r white_spec). repeat split; assumption. }
    rewrite L, skipn_app, Nat.sub_diag, skipn_all in B. cbn in B. destruct r as [|d r]; [discriminate|]. exists d, r. split; [reflexivity|].
    apply ps_LETTER_spec, B.
  - cbn [app by_name_b] in B. apply andb_prop in B. apply IH; [apply B|assumption|assumption].
Qed.

Lemma ring_files p : c_read (session ring) p <> None -> In p (map (fun x => lit (fst x)) ring).
Proof.
  cbn [c_read session]. unfold disk_of. destruct (find _ ring) as [x|] eqn:F; [intros _|congruence].
  apply find_some in F. destruct F as [F1 F2]. destruct (teqb_spec (lit (fst x)) p) as [<-|]; [|discriminate].
  apply (in_map (fun x => lit (fst x)) _ _ F1).
Qed.
Lemma ring_clean p c : c_read (session ring) p = Some c -> imports_by_name (unify_eol c).
Proof.
  cbn [c_read session]. unfold disk_of. destruct (find _ ring) as [x|] eqn:F; [|discriminate]. intros [= <-].
  apply find_some in F. destruct F as [F1 _]. apply by_name_b_spec.
  destruct F1 as [<-|[<-|[<-|[]]]]; vm_compute; reflexivity.
Qed.
Lemma ring_main_clean : imports_by_name (lit ring_main).
Proof. apply by_name_b_spec. vm_compute. reflexivity. Qed.

(** the pieces of text of the parse of the ring, in order *)
Definition texts_of (l : list node) : list text :=
  concat (map (fun x => match x with NPlain s _ _ => [s_txt s] | _ => [] end) l).
Lemma ring_parse : exists l s', yuparse (session ring) 5 (lit "main.yu") (started ring_main) = Ok (l, s') /\
  texts_of l = [lit "A"; lit "B"; lit "C"; lit " "; lit " "; lit "!"] /\
  map fst (y_source s') = [source_empty; lit "main.yu"; lit "a.yu"; lit "b.yu"; lit "c.yu"].
Proof. eexists. eexists. split; [vm_compute; reflexivity|]. split; vm_compute; reflexivity. Qed.

(** The file "0" and an evaluated import *)
Definition numeral_file : list (String.string * String.string) := [("0", "abc")]%string.
Definition numeral_main : String.string := "($import ""0"")($import {x})"%string.
Lemma disk_find files p c : disk_of files p = Some c -> In p (map (fun x => lit (fst x)) files).
Proof.
  unfold disk_of. destruct (find _ files) as [x|] eqn:F; [intros _|discriminate].
  apply find_some in F. destruct F as [F1 F2]. destruct (teqb_spec (lit (fst x)) p) as [<-|]; [|discriminate].
  apply (in_map (fun x => lit (fst x)) _ _ F1).
Qed.
Lemma numeral_clash : exists l s', yuparse (session numeral_file) 3 (lit "main.yu") (started numeral_main) = Ok (l, s') /\
  consistent (session numeral_file) (started numeral_main) /\
  ~ Forall (well_located (known s')) l.
Proof.
  eexists. eexists. split; [vm_compute; reflexivity|]. split.
  - split.
    + intros lib c t R (d & K). pose proof (disk_find _ _ _ R) as [E|[]]. cbn [fst] in E. exfalso. unfold started in K. cbn [y_source dict_get] in K.
      destruct (teqb_spec lib source_empty) as [->|N1]; [vm_compute in E; discriminate|].
      destruct (teqb_spec lib (lit "main.yu")) as [->|N2]; [vm_compute in E; discriminate|discriminate].
    + intros n t _ (d & K). unfold started in K. cbn [y_source dict_get] in K.
      assert (D : forall c r, nat_text n = c :: r -> 48 <= c <= 57).
      { unfold nat_text. intros c r E. destruct (Nat.to_uint n); cbn in E; try discriminate; injection E as <- _; lia. }
      destruct (teqb_spec (nat_text n) source_empty) as [E|N1]; [change source_empty with (60 :: lit "null>") in E; apply D in E; lia|].
      destruct (teqb_spec (nat_text n) (lit "main.yu")) as [E|N2]; [change (lit "main.yu") with (109 :: lit "ain.yu") in E; apply D in E; lia|discriminate].
  - intros H. inversion H as [|x l' _ H2]; subst. inversion H2 as [|x l' H3 _]; subst. destruct H3 as [H3 _].
    specialize (H3 _ (fr_plain _ _ _)). cbn in H3. destruct H3 as (_ & t & a & b & (d & K) & Et & _). vm_compute in K.
    injection K as <- <-. apply (f_equal (@length N)) in Et. cbn in Et. rewrite !app_length in Et. cbn in Et. lia.
Qed.

Lemma plain_consistent main : consistent (session []) (started main).
Proof.
  split.
  - intros lib c t. cbn [c_read session]. discriminate.
  - intros n t _ (d & K). unfold started in K. cbn [y_source dict_get] in K.
    assert (D : forall c r, nat_text n = c :: r -> 48 <= c <= 57).
    { unfold nat_text. intros c r E. destruct (Nat.to_uint n); cbn in E; try discriminate; injection E as <- _; lia. }
    destruct (teqb_spec (nat_text n) source_empty) as [E|N1]; [change source_empty with (60 :: lit "null>") in E; apply D in E; lia|].
    destruct (teqb_spec (nat_text n) (lit "main.yu")) as [E|N2]; [change (lit "main.yu") with (109 :: lit "ain.yu") in E; apply D in E; lia|discriminate].
Qed.

Definition no_imports_b (t : text) : bool := match find_sub ps_IMPORT t with None => true | Some _ => false end.
Lemma no_imports_b_spec t : no_imports_b t = true -> no_imports t.
Proof.
  unfold no_imports_b. destruct (find_sub ps_IMPORT t) as [|] eqn:F; [discriminate|]. intros _ (a & b & ->).
  apply find_sub_none with (j := length a) in F. rewrite skipn_app, Nat.sub_diag, skipn_all in F.
  change (startswith ps_IMPORT (lit "($import" ++ b) = false) in F. discriminate F.
Qed.
Lemma total_case : exists l s' e,
  yuparse (session []) 1 (lit "main.yu") (started "($set f \x.[($x (f))] ) ($f 1 {2 + 2}) (`t) ) ]")%string = Ok (l, s') /\
  yuparse (session []) 1 (lit "main.yu") (started "($set f \x.[($x (f))]")%string = Err e /\
  no_imports (lit "($set f \x.[($x (f))]").
Proof.
  eexists. eexists. eexists. split; [vm_compute; reflexivity|]. split; [vm_compute; reflexivity|].
  apply no_imports_b_spec. vm_compute. reflexivity.
Qed.
Lemma located_case : no_numeral_files (session []) /\
  consistent (session []) (started "a ($f [($x)] n \y.(add y 1))"%string) /\
  exists l s' x, yuparse (session []) 1 (lit "main.yu") (started "a ($f [($x)] n \y.(add y 1))"%string) = Ok (l, s') /\
    In x l /\ fragment x (Src (lit "add") (Some (lit "main.yu")) 19).
Proof.
  split; [intros n; reflexivity|]. split; [apply plain_consistent|].
  eexists. eexists. eexists. split; [vm_compute; reflexivity|]. split; [right; left; reflexivity|].
  eapply fr_inside; [apply ch_apply_arg; right; right; left; reflexivity|].
  eapply fr_inside; [apply ch_lambda_body|]. eapply fr_inside; [apply ch_list; left; reflexivity|]. apply fr_var.
Qed.
Lemma numeral_refuted : ~ (forall cx n key s l s', consistent cx s -> yuparse cx n key s = Ok (l, s') -> Forall (well_located (known s')) l).
Proof.
  intros H. destruct numeral_clash as (l & s' & E & C & N). exact (N (H _ _ _ _ _ _ C E)).
Qed.
Lemma quoted_refuted : ~ (forall cx key s t, known s key t -> exists n, yuparse cx n key s <> Fuel).
Proof.
  intros H. destruct (H (session quoted_ring) (lit "a.yu") quoted_state (lit "($import ""a.yu"")")) as (n & N).
  - exists (DPath (lit "a.yu")). reflexivity.
  - apply N, quoted_cycle.
Qed.
