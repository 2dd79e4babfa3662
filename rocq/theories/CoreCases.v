(** Application of functions with arbitrary bodies: wrappers and cases (proofs only). *)
From Coq Require Import List NArith ZArith Bool String.
From Verif Require Import PyStr Ast Lex Parse Final Eval Builtin TrimSpec TrimFacts TrimCases EnvSpec EnvFacts EvalSpec EvalMono EvalFacts EvalFacts2 EvalFacts3 EvalCases ApplyFacts ApplyFacts2 ApplyCases CoreSpec CoreFacts CoreFacts2.
Import ListNotations.
Open Scope list_scope.

Lemma placed_trim ec i u w : placed ec i u w -> w = trim (e_trim ec) i u.
Proof.
  unfold placed. destruct (e_trim ec).
  - intros H. symmetry. apply trim_follows, H.
  - intros ->. unfold trim. destruct u; reflexivity.
Qed.
Lemma any_body ec parse e0 s0 bd ps dflt E c e s fn args vs named nm bs gs file pos v :
  e_browse ec = false -> declares ec parse e0 s0 bd ps dflt -> NoDup ps -> ps <> [] ->
  evals ec parse (NLambda bd (tree E)) e0 s0 c e0 s0 ->
  evals ec parse fn e s c e s -> evals ec parse (NList args) e s (NList vs) e s -> Forall data vs ->
  named_values ec parse e s named nm -> Forall (fun b => data (snd b)) nm -> Forall (fun b => data (snd b)) dflt ->
  incl (names nm) ps -> binds nm dflt ps vs bs ->
  Forall (constant ps e0 e) gs -> means ec parse (placed ec) (outside ps e0 e) (bs ++ gs) E v ->
  evals ec parse (NApply fn args named file pos) e s v e s.
Proof. intros Hb. apply body_applied; [apply placed_trim|exact Hb]. Qed.
Lemma any_body_curried ec parse e0 s0 bd ps1 p ps2 dflt E c e s fn args1 vs1 args2 vs2 bs gs file1 pos1 file2 pos2 v :
  e_browse ec = false -> declares ec parse e0 s0 bd (ps1 ++ p :: ps2) dflt -> NoDup (ps1 ++ p :: ps2) ->
  evals ec parse (NLambda bd (tree E)) e0 s0 c e0 s0 ->
  evals ec parse fn e s c e s -> evals ec parse (NList args1) e s (NList vs1) e s -> Forall data vs1 ->
  evals ec parse (NList args2) e s (NList vs2) e s -> Forall data vs2 -> Forall (fun b => data (snd b)) dflt ->
  List.length vs1 = List.length ps1 -> ~ In (lit "__va_args__") ps1 -> ~ In p (names dflt) ->
  binds [] dflt (p :: ps2) vs2 bs ->
  Forall (constant (ps1 ++ p :: ps2) e0 e) gs ->
  means ec parse (placed ec) (outside (ps1 ++ p :: ps2) e0 e) ((combine ps1 vs1 ++ bs) ++ gs) E v ->
  exists c1, evals ec parse (NApply fn args1 [] file1 pos1) e s c1 e s /\
    forall fn2, evals ec parse fn2 e s c1 e s -> evals ec parse (NApply fn2 args2 [] file2 pos2) e s v e s.
Proof. intros Hb. eapply body_curried; [apply placed_trim|exact Hb]. Qed.
Lemma any_body_defined ec parse e0 s0 bd ps dflt E bs gs v e :
  e_browse ec = false -> declares ec parse e0 s0 bd ps dflt -> NoDup ps -> ps <> [] ->
  names bs = ps -> Forall (fun b => data (snd b)) bs ->
  Forall (constant ps e0 e) gs -> means ec parse (placed ec) (outside ps e0 e) (bs ++ gs) E v ->
  exists c, evals ec parse (NLambda bd (tree E)) e0 s0 c e0 s0.
Proof. intros Hb. eapply body_defined; [apply placed_trim|exact Hb]. Qed.

(** ** Case: \a \b \c:9 .. with every kind of expression *)
(* a context whose Python evaluates {b + 1} *)
Definition ec2 : ectx :=
  ECtx ctx0 true false 0 (builtin_with [] (fun _ _ => None) (lit "main.yu") (fun _ => None))
       (fun _ => Ok [lit "b"]) (fun _ f => match f with [(_, NInt z)] => Ok (NInt (z + 1)) | _ => Err (Exn TypeError "") end)
       (fun t => t) (fun _ => 0%Z) (fun _ => []).
Definition cpar (t : string) : cexp := CParam (RList []) (raw (lit t)).
Definition body : cexp :=
  CList [CCond (cpar "b") (CCall (raw (lit "len")) [cpar "a"] None 0) (CValue (NInt 5));
         CPick 0 [cpar "a"] None 0;
         CInfix (NRaw (lit " b + 1")) None 0;
         CText [CLit (raw (lit "    ")) (IndStr (lit "    ")); CShow (CPick 1 [cpar "a"] None 0) None 0;
                CLit (raw (lit " + ")) IndNone; CShow (cpar "c") None 0] 0 0;
         cpar "k"].
(* k = 10 is defined outside; a = ("p" "x\n y"), b = 3, c = 9 *)
Definition va : node := NList [NRaw (lit "p"); NRaw (nl "x" " y")].
Definition body_value : node := NList [NInt 2; NRaw (lit "p"); NInt 4; NRaw (nl "    x" "     y + 9"); NInt 10].
Definition body_bs := [(lit "a", va); (lit "b", NInt 3); (lit "c", NInt 9)].
Definition body_gs := [(lit "k", NInt 10)].
Definition body_env : env := [body_gs].
Lemma va_data : data va.
Proof. constructor. repeat constructor. Qed.
Lemma at_name (l r : list (text * node)) k v : ~ In k (names l) -> gives (l ++ (k, v) :: r) k v.
Proof. intros H. exists l, r. auto. Qed.
Lemma body_means_gen (free : text -> Prop) : free (lit "len") -> means ec2 noparse (placed ec2) free (body_bs ++ body_gs) body body_value.
Proof.
  intros Hf.
  assert (Ga : gives (body_bs ++ body_gs) (lit "a") va) by (apply (at_name []); intros []).
  assert (Gb : gives (body_bs ++ body_gs) (lit "b") (NInt 3)) by (apply (at_name [(lit "a", va)]); intros [H|[]]; discriminate H).
  assert (Gc : gives (body_bs ++ body_gs) (lit "c") (NInt 9)) by (apply (at_name [(lit "a", va); (lit "b", NInt 3)]); intros [H|[H|[]]]; discriminate H).
  assert (Fx : follows (lit "    ") (nl "x" " y") (nl "x" "     y")).
  { destruct (every_text_follows (lit "    ") [lit "x"; lit " y"]) as (w & Fw & Ew); [discriminate| |].
    - repeat constructor; discriminate.
    - change (join [10%N] [lit "x"; lit " y"]) with (nl "x" " y") in *. assert (E1 : w = nl "x" "     y") by (rewrite <- Ew; vm_compute; reflexivity). rewrite <- E1. exact Fw. }
  assert (F9 : follows [] (lit "9") (lit "9")).
  { destruct (every_text_follows [] [lit "9"]) as (w & Fw & Ew); [discriminate| |].
    - repeat constructor; discriminate.
    - change (join [10%N] [lit "9"]) with (lit "9") in *. assert (E1 : w = lit "9") by (rewrite <- Ew; vm_compute; reflexivity). rewrite E1 in Fw. exact Fw. }
  apply ME_list. constructor; [|constructor; [|constructor; [|constructor; [|constructor; [|constructor]]]]].
  - apply ME_cond with (vc := NInt 3) (va := NInt 2) (vb := NInt 5).
    + apply ME_param, Gb.
    + apply ME_call with (vs := [va]); [constructor; [apply ME_param, Ga|constructor]|exact Hf| |constructor].
      exists b_len, (NInt 2). split; [intros imported; reflexivity|split; [intros st|]; reflexivity].
    + apply ME_value. constructor.
    + split; [reflexivity|left]. split; [|reflexivity]. intros [H|[H|[H|[H|[H|[? [H ?]]]]]]]; discriminate H.
  - apply ME_pick with (vs := [va]) (l := [NRaw (lit "p"); NRaw (nl "x" " y")]); [constructor; [apply ME_param, Ga|constructor]|apply IX_list; reflexivity| |constructor].
    apply EL_from_start with (i := 0%nat); reflexivity.
  - change (NInt 4) with (const_result (NInt 4)). eapply ME_infix with (t := lit " b + 1").
    + intros e s. exists (NRaw (lit " b + 1")). split; [exists 1%nat; reflexivity|reflexivity].
    + reflexivity.
    + eapply PK_parameter; [exact Gb|intros []|constructor].
    + reflexivity.
    + constructor.
  - eapply ME_text with (vs := [NPlain (raw (lit "    ")) (IndStr (lit "    ")) false; NRaw (nl "x" " y"); NPlain (raw (lit " + ")) IndNone false; NInt 9]).
    + constructor; [apply ME_lit|]. constructor; [|constructor; [apply ME_lit|constructor; [|constructor]]].
      * eapply ME_show; [|apply VT_raw]. apply ME_pick with (vs := [va]) (l := [NRaw (lit "p"); NRaw (nl "x" " y")]); [constructor; [apply ME_param, Ga|constructor]|apply IX_list; reflexivity| |constructor].
        apply EL_from_start with (i := 1%nat); reflexivity.
      * eapply ME_show; [apply ME_param, Gc|apply VT_int].
    + repeat constructor; intros [].
    + change (nl "    x" "     y + 9") with (lit "    " ++ nl "x" "     y" ++ lit " + " ++ lit "9" ++ []).
      apply WR_other; [intros []|apply SH_plain|].
      eapply WR_applied; [exact I|apply SH_value, VT_raw|exact Fx|].
      apply WR_other; [intros []|apply SH_plain|].
      eapply WR_applied; [exact I|apply SH_value, VT_int|exact F9|]. constructor.
  - apply ME_param. apply (at_name body_bs [] (lit "k")). intros [H|[H|[H|[]]]]; discriminate H.
Qed.
Definition body_pars := [par "a"; par "b"; par_default "c" (NInt 9)].
Lemma body_declares : declares ec2 noparse body_env st0 body_pars fn_ps [(lit "c", NInt 9)].
Proof.
  apply DE_plain with (a := raw (lit "a")). apply DE_plain with (a := raw (lit "b")).
  apply DE_default with (a := raw (lit "c")); [discriminate|exists 1%nat; reflexivity|apply int_steady|constructor].
Qed.
Lemma body_binds : binds [] [(lit "c", NInt 9)] fn_ps [va; NInt 3] body_bs.
Proof.
  apply BI_positional; [intros []|discriminate|]. apply BI_positional; [intros []|discriminate|].
  apply BI_default; [intros []|exists [], []; split; [reflexivity|intros []]|]. constructor.
Qed.
Lemma body_means : means ec2 noparse (placed ec2) (outside fn_ps body_env body_env) (body_bs ++ body_gs) body body_value.
Proof.
  apply body_means_gen. split; [intros [H|[H|[H|[]]]]; discriminate H|split; (constructor; [intros [H|[]]; discriminate H|constructor])].
Qed.
Lemma body_constants : Forall (constant fn_ps body_env body_env) body_gs.
Proof.
  assert (H : known body_env (lit "k") (NInt 10)).
  { exists [], body_gs, []. split; [|exists [], []; split; [reflexivity|intros []]]. split; [reflexivity|split; [constructor|left; reflexivity]]. }
  constructor; [|constructor]. split; [intros [E|[E|[E|[]]]]; discriminate E|]. split; [constructor|split; exact H].
Qed.
Lemma body_case : evals ec2 noparse (NApply (NLambda body_pars (tree body)) [va; NInt 3] [] None 0) body_env st0 body_value body_env st0.
Proof. run 40%nat. Qed.
Lemma body_in_steps_case : evals ec2 noparse
  (NApply (NApply (NLambda body_pars (tree body)) [va] [] None 0) [NInt 3] [] None 0) body_env st0 body_value body_env st0.
Proof. run 40%nat. Qed.

(** ** A parameter of the caller is taken for a parameter of the function *)
Definition pair_of (x y : string) : node := NLambda [par x; par y] (NList [var x; var y]).
Lemma capture_case :
  evals ec0 noparse (NApply (pair_of "x" "y") [NInt 7; NInt 2] [] None 0) [] st0 (NList [NInt 7; NInt 2]) [] st0 /\
  evals ec0 noparse (NApply (NLambda [par "y"] (NApply (pair_of "x" "y") [var "y"; NInt 2] [] None 0)) [NInt 7] [] None 0) [] st0
    (NList [NInt 2; NInt 2]) [] st0 /\
  evals ec0 noparse (NApply (NLambda [par "y"] (NApply (pair_of "x" "z") [var "y"; NInt 2] [] None 0)) [NInt 7] [] None 0) [] st0
    (NList [NInt 7; NInt 2]) [] st0.
Proof. split; [|split]; run 40%nat. Qed.
(** ** A parameter is lost in a conditional inside a conditional *)
Definition nested (p : string) : node := NLambda [par p] (NCond (var p) (NCond (var p) (var p) (NInt 0)) (NInt 0)).
Lemma nested_case :
  evals ec0 noparse (NApply (nested "p") [NInt 7] [] None 0) [] st0 (NInt 7) [] st0 /\
  evals ec0 noparse (NApply (NLambda [par "x"] (NApply (nested "p") [var "x"] [] None 0)) [NInt 7] [] None 0) [] st0 (NAtom (name0 "p")) [] st0.
Proof. split; run 40%nat. Qed.
(** ** The branch that is not chosen *)
Definition guarded : node := NCond (var "b") (call (var "len") [var "a"]) (var "a").
Lemma unchosen_case :
  finishes ec0 noparse (NApply (NLambda [par "a"; par "b"] guarded) [NInt 5; NInt 0] [] None 0) [] st0
    (Err (Exn TypeError "python: argument")) /\
  evals ec0 noparse (NApply (NLambda [par "b"; par "a"] guarded) [NInt 0; NInt 5] [] None 0) [] st0 (NInt 5) [] st0 /\
  evals ec0 noparse guarded [[(lit "a", NInt 5); (lit "b", NInt 0)]] st0 (NInt 5) [[(lit "a", NInt 5); (lit "b", NInt 0)]] st0.
Proof. split; [|split]; [split; [discriminate|]| |]; run 40%nat. Qed.
