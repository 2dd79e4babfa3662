(** Concrete cases for application, and small wrappers (proofs only). *)
From Coq Require Import List NArith ZArith Bool String.
From Verif Require Import PyStr Ast Lex Parse Final Eval Builtin FinalSpec TrimSpec TrimFacts EnvSpec EnvFacts EvalSpec EvalMono EvalFacts EvalFacts2 EvalFacts3 EvalCases ApplyFacts ApplyFacts2 ApplyFacts3 ApplyFacts4.
Import ListNotations.
Open Scope list_scope.

Definition ref (t : string) : litem := LVar (RList []) (raw (lit t)).
Definition par (t : string) : list source * source * node := ([], raw (lit t), NNone).
Definition par_default (t : string) (d : node) : list source * source * node := ([], raw (lit t), d).
Lemma int_steady ec parse z : steady ec parse (NInt z).
Proof. split; [exact I|]. split; [discriminate|]. intros e s. exists 1%nat. reflexivity. Qed.
Lemma ints_steady ec parse l : Forall (steady ec parse) (map NInt l).
Proof. induction l; constructor; [apply int_steady|assumption]. Qed.

(** ** C16: \a \b \c:9 .. [c a 7 b] *)
Definition fn_pars := [par "a"; par "b"; par_default "c" (NInt 9)].
Definition fn_items := [ref "c"; ref "a"; LConst (NInt 7); ref "b"].
Definition fn_ps := [lit "a"; lit "b"; lit "c"].
Lemma fn_declares : declares ec0 noparse [] st0 fn_pars fn_ps [(lit "c", NInt 9)].
Proof.
  apply DE_plain with (a := raw (lit "a")). apply DE_plain with (a := raw (lit "b")).
  apply DE_default with (a := raw (lit "c")); [discriminate|exists 1%nat; reflexivity|apply int_steady|constructor].
Qed.
Definition fn_closure : node :=
  NLClosure (NList (map lnode fn_items)) [(lit "a", NBound); (lit "b", NBound); (lit "c", NBound)] [] [(lit "c", NInt 9)].
Lemma fn_evaluates : evals ec0 noparse (NLambda fn_pars (NList (map lnode fn_items))) [] st0 fn_closure [] st0.
Proof. run 9%nat. Qed.
(* (f 1 \a 2) binds b to 1 and leaves c its default *)
Lemma fn_binds : binds [(lit "a", NInt 2)] [(lit "c", NInt 9)] fn_ps [NInt 1] [(lit "a", NInt 2); (lit "b", NInt 1); (lit "c", NInt 9)].
Proof.
  apply BI_named; [exists [], []; split; [reflexivity|intros []]|].
  apply BI_positional; [intros [H|[]]; discriminate H|discriminate|].
  apply BI_default; [intros [H|[]]; discriminate H|exists [], []; split; [reflexivity|intros []]|]. constructor.
Qed.
Definition fn_call := NApply (NLambda fn_pars (NList (map lnode fn_items))) [NInt 1] [(raw (lit "a"), NInt 2)] None 0.
Lemma fn_case : evals ec0 noparse fn_call [] st0 (NList [NInt 9; NInt 2; NInt 7; NInt 1]) [] st0.
Proof. run 20%nat. Qed.
Lemma fn_values : named_values ec0 noparse [] st0 [(raw (lit "a"), NInt 2)] [(lit "a", NInt 2)].
Proof.
  split; [constructor; [split; [reflexivity|exists 1%nat; reflexivity]|constructor]|].
  split; [constructor; [intros []|constructor]|]. constructor; [apply int_steady|constructor].
Qed.
(* \a \... .. [a ...] : the remaining arguments *)
Lemma rest_case : evals ec0 noparse
  (NApply (NLambda [par "a"; par "..."] (NList [var "__va_args__"; var "a"])) [NInt 1; NInt 2; NInt 3] [] None 0) [] st0
  (NList [NList [NInt 2; NInt 3]; NInt 1]) [] st0.
Proof. run 20%nat. Qed.
(* the default of ... is never used *)
Lemma rest_default_case : exists c, evals ec0 noparse
  (NApply (NLambda [par "a"; par_default "..." (NInt 5)] (NList [var "__va_args__"; var "a"])) [NInt 1] [] None 0) [] st0 c [] st0 /\
  forall ws, c <> NList ws.
Proof. eexists. split; [run 20%nat|]. intros ws. discriminate. Qed.
Lemma unknown_case : finishes ec0 noparse
  (NApply (NLambda fn_pars (NList (map lnode fn_items))) [NInt 1] [(raw (lit "d"), NInt 2)] None 0) [] st0
  (Err (Exn TypeError "yueval: function has no parameter")).
Proof. split; [discriminate|]. run 20%nat. Qed.
(* ((f 1) 2 3) is (f 1 2 3) *)
Lemma curried_case : evals ec0 noparse
  (NApply (NApply (NLambda fn_pars (NList (map lnode fn_items))) [NInt 1] [] None 0) [NInt 2; NInt 3] [] None 0) [] st0
  (NList [NInt 3; NInt 1; NInt 7; NInt 2]) [] st0 /\
  evals ec0 noparse (NApply (NLambda fn_pars (NList (map lnode fn_items))) [NInt 1; NInt 2; NInt 3] [] None 0) [] st0
  (NList [NInt 3; NInt 1; NInt 7; NInt 2]) [] st0.
Proof. split; run 20%nat. Qed.

(** ** C17 *)
Lemma template_plain ec parse e0 s0 bd ps dflt items sq q c e s fn args vs named nm bs file pos t :
  e_browse ec = false -> e_trim ec = false ->
  declares ec parse e0 s0 bd ps dflt -> NoDup ps -> ps <> [] -> ~ In (lit "__va_args__") ps ->
  Forall (fun i => match i with TRef _ a _ _ => In (s_txt a) ps | _ => True end) items ->
  evals ec parse (NLambda bd (NText (map tnode items) sq q)) e0 s0 c e0 s0 ->
  evals ec parse fn e s c e s -> evals ec parse (NList args) e s (NList vs) e s ->
  named_values ec parse e s named nm -> incl (names nm) ps -> binds nm dflt ps vs bs ->
  Forall textual vs -> Forall (fun b => textual (snd b)) nm -> Forall (fun b => textual (snd b)) dflt ->
  filled (fun _ u w => w = u) bs (IndStr []) items t ->
  evals ec parse (NApply fn args named file pos) e s (NRaw t) e s.
Proof.
  intros Hb Ht. apply template_fills; [exact Hb|]. intros i u w ->. rewrite Ht. unfold trim. destruct u; reflexivity.
Qed.
Lemma template_indented ec parse e0 s0 bd ps dflt items sq q c e s fn args vs named nm bs file pos t :
  e_browse ec = false -> e_trim ec = true ->
  declares ec parse e0 s0 bd ps dflt -> NoDup ps -> ps <> [] -> ~ In (lit "__va_args__") ps ->
  Forall (fun i => match i with TRef _ a _ _ => In (s_txt a) ps | _ => True end) items ->
  evals ec parse (NLambda bd (NText (map tnode items) sq q)) e0 s0 c e0 s0 ->
  evals ec parse fn e s c e s -> evals ec parse (NList args) e s (NList vs) e s ->
  named_values ec parse e s named nm -> incl (names nm) ps -> binds nm dflt ps vs bs ->
  Forall textual vs -> Forall (fun b => textual (snd b)) nm -> Forall (fun b => textual (snd b)) dflt ->
  filled follows bs (IndStr []) items t ->
  evals ec parse (NApply fn args named file pos) e s (NRaw t) e s.
Proof.
  intros Hb Ht. apply template_fills; [exact Hb|]. intros i u w Hf. rewrite Ht. symmetry. apply trim_follows, Hf.
Qed.
Definition tref (t : string) : titem := TRef (RList []) (raw (lit t)) None 0.
Definition tpl_items : list titem :=
  [TLit (raw (lit "  ")) (IndStr (lit "  ")); tref "a"; TLit (raw (lit " + ")) IndFalse; tref "b"; TLit (raw (lit " + ")) IndFalse; tref "a"].
Definition nl (a b : string) : text := lit a ++ 10%N :: lit b.
Definition tpl_call : node :=
  NApply (NLambda [par "a"; par "b"] (NText (map tnode tpl_items) 0 0)) [NRaw (nl "  x" "  y"); NInt 7] [] None 0.
Lemma tpl_case_off : evals (ec_at false 0) noparse tpl_call [] st0
  (NRaw (nl "    x" "  y + 7 +   x" ++ 10%N :: lit "  y")) [] st0.
Proof. run 20%nat. Qed.
Lemma tpl_case_on : evals ec0 noparse tpl_call [] st0
  (NRaw (nl "  x" "  y + 7 + x" ++ 10%N :: lit "y")) [] st0.
Proof. run 20%nat. Qed.
Lemma tpl_binds : binds [] [] [lit "a"; lit "b"] [NRaw (nl "  x" "  y"); NInt 7] [(lit "a", NRaw (nl "  x" "  y")); (lit "b", NInt 7)].
Proof.
  apply BI_positional; [intros []|discriminate|]. apply BI_positional; [intros []|discriminate|]. constructor.
Qed.
Lemma tpl_filled : filled (fun _ u w => w = u) [(lit "a", NRaw (nl "  x" "  y")); (lit "b", NInt 7)] (IndStr []) tpl_items
  (nl "    x" "  y + 7 +   x" ++ 10%N :: lit "  y").
Proof.
  assert (Ha : gives [(lit "a", NRaw (nl "  x" "  y")); (lit "b", NInt 7)] (lit "a") (NRaw (nl "  x" "  y"))).
  { exists [], [(lit "b", NInt 7)]. split; [reflexivity|intros []]. }
  assert (Hb : gives [(lit "a", NRaw (nl "  x" "  y")); (lit "b", NInt 7)] (lit "b") (NInt 7)).
  { exists [(lit "a", NRaw (nl "  x" "  y"))], []. split; [reflexivity|]. intros [H|[]]; discriminate H. }
  change (nl "    x" "  y + 7 +   x" ++ 10%N :: lit "  y") with
    (lit "  " ++ nl "  x" "  y" ++ lit " + " ++ Z_text 7 ++ lit " + " ++ nl "  x" "  y" ++ []).
  apply (FI_lit _ _ _ (raw (lit "  ")) (IndStr (lit "  "))). eapply FI_ref; [exact Ha|apply VT_raw|reflexivity|].
  apply (FI_lit _ _ _ (raw (lit " + ")) IndFalse). eapply FI_ref; [exact Hb|apply VT_int|reflexivity|].
  apply (FI_lit _ _ _ (raw (lit " + ")) IndFalse). eapply FI_ref; [exact Ha|apply VT_raw|reflexivity|]. constructor.
Qed.
