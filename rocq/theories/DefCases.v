(** Definitions: wrappers and cases (proofs only). *)
From Coq Require Import List NArith ZArith Bool String.
From Verif Require Import PyStr Ast Lex Parse Final Eval Builtin EnvSpec EnvFacts EvalSpec EvalMono EvalKeep EvalFacts EvalFacts2 EvalFacts3 EvalFacts4 EvalCases DefSpec DefFacts.
Import ListNotations.
Open Scope list_scope.

Lemma definition_in_rest ec parse lv ast y rest ind e s v f1 e1 s1 f s2 t e3 s3 :
  e_browse ec = false -> NoDup (declared lv) -> no_setting lv ->
  evals ec parse ast (no_values (declared lv) :: e) s v (f1 :: e1) s1 -> assigned lv v s1 f s2 ->
  evals ec parse (NT (NSet lv ast :: y :: rest) ind) e s (NRaw t) e3 s3 <->
  exists f', evals ec parse (NT (trimmed_next ind (y :: rest)) ind) (f :: e1) s2 (NRaw t) (f' :: e3) s3.
Proof.
  intros Hb Hn Ho Hv Ha. pose proof (set_value ec parse lv ast e s v f1 e1 s1 f s2 Hn Ho Hv Ha) as Hs.
  split; intros H.
  - eapply scope_of_rest_only; [exact Hb| |exact Hs|exact H]. discriminate.
  - destruct H as [f' H]. eapply scope_of_rest; [exact Hb| |exact Hs|exact H]. discriminate.
Qed.
Lemma macro_in_rest ec parse name pars body y rest ind e s t e3 s3 :
  e_browse ec = false -> NoDup (map s_txt pars) ->
  evals ec parse (NT (NMacro name pars body :: y :: rest) ind) e s (NRaw t) e3 s3 <->
  exists f', evals ec parse (NT (trimmed_next ind (y :: rest)) ind)
    ([(s_txt name, NMClosure body (no_values (map s_txt pars)) (Some name) None)] :: e) s (NRaw t) (f' :: e3) s3.
Proof.
  intros Hb Hn. pose proof (macro_value ec parse name pars body e s Hn) as Hs.
  split; intros H.
  - eapply scope_of_rest_only; [exact Hb| |exact Hs|exact H]. discriminate.
  - destruct H as [f' H]. eapply scope_of_rest; [exact Hb| |exact Hs|exact H]. discriminate.
Qed.
(** ($set (a b c) (1 2)) a,b,c! where b is 9 outside *)
Definition pair_lv : lval := LList [name0 "a"; name0 "b"; name0 "c"].
Definition pair_rest : list node :=
  [call (var "a") []; words ","; call (var "b") []; words "!"].
Definition pair_text : node := NT (NSet pair_lv (NList [NInt 1; NInt 2]) :: pair_rest) (IndStr []).
Definition pair_env : env := [[(lit "b", NInt 9)]].
Definition pair_frame : frame := [(lit "a", NInt 1); (lit "b", NInt 2); (lit "c", NNone)].
Lemma pair_case :
  NoDup (declared pair_lv) /\
  evals ec0 noparse (NList [NInt 1; NInt 2]) (no_values (declared pair_lv) :: pair_env) st0
    (NList [NInt 1; NInt 2]) (no_values (declared pair_lv) :: pair_env) st0 /\
  assigned pair_lv (NList [NInt 1; NInt 2]) st0 pair_frame (warn "there is nothing to assign" st0) /\
  evals ec0 noparse pair_text pair_env st0 (NRaw (lit "1,2!")) pair_env (warn "there is nothing to assign" st0).
Proof.
  split; [|split; [|split]].
  - repeat constructor; cbn; intros H; repeat destruct H as [H|H]; try discriminate H; exact H.
  - run 9%nat.
  - eapply AS_elements; [reflexivity|]. apply SS_value, SS_value, SS_missing, SS_end.
  - run 30%nat.
Qed.
Definition let_node : node := NLet (LAtom (name0 "a")) (NInt 3) (NList [var "a"; var "b"]).
Lemma let_case : evals ec0 noparse let_node [[(lit "a", NInt 1); (lit "b", NInt 2)]] st0
  (NList [NInt 3; NInt 2]) [[(lit "a", NInt 1); (lit "b", NInt 2)]] st0.
Proof. run 30%nat. Qed.
(** a macro whose body reads as [($set a 1)x], called before [($a)!] *)
Definition set_parse : text -> M (list node) := fun _ => ret [NSet (LAtom (name0 "a")) (NInt 1); words "x"].
Lemma embedded_case :
  (exists l i s, evals ec0 set_parse (NEval (NRaw (lit "($set a 1)x")) None None) [] st0 (NEmbed (NT l i)) [] s) /\ exists s, evals ec0 set_parse
    (NT [NEval (NRaw (lit "($set a 1)x")) None None; call (var "a") []; words "!"] (IndStr [])) [] st0 (NRaw (lit "x1!")) [] s.
Proof. split; [eexists; eexists; eexists|eexists]; run 30%nat. Qed.
(** x = 5, then x = x + 1: no text comes out *)
Definition redefinition : node :=
  NText [NSet (LAtom (name0 "x")) (NInt 5); NSet (LAtom (name0 "x")) (call (var "inc") [var "x"]); call (var "x") []; words "!"] 0 0.
Lemma redefinition_case : exists v, evals ec0 noparse redefinition [] st0 v [] st0 /\ is_term v = false.
Proof. eexists. split; [run 40%nat|reflexivity]. Qed.
Definition redefinition_with_let : node :=
  NText [NSet (LAtom (name0 "x")) (NInt 5); call (NLet (LAtom (name0 "x")) (call (var "inc") [var "x"]) (var "x")) []; words "!"] 0 0.
Lemma redefinition_let_case : exists v s, evals ec0 noparse redefinition_with_let [] st0 v [] s /\ is_term v = false.
Proof. eexists. eexists. split; [run 40%nat|reflexivity]. Qed.
