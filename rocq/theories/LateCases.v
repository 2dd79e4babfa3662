(** Late-bound parameters: wrappers and cases (proofs only). *)
From Coq Require Import List NArith ZArith Bool String.
From Verif Require Import PyStr Ast Lex Parse Final Eval Builtin TrimSpec EnvSpec EnvFacts EvalSpec EvalFacts EvalCases ApplyFacts2 ApplyCases CoreSpec CoreFacts CoreFacts2 CoreCases LateSpec LateFacts.
Import ListNotations.
Open Scope list_scope.

Lemma late_bound ec parse p ks e s gs E rows vs e0 s0 :
  e_browse ec = false -> ks <> [] -> NoDup (map s_txt ks) -> ~ In (s_txt p) (map s_txt ks) -> ~ In (lit "__va_args__") (map s_txt ks) ->
  s_txt p <> lit "..." -> s_txt p <> lit "__va_args__" ->
  Forall (unknown e) (map s_txt ks) -> Forall (given_there (s_txt p) (map s_txt ks) e) gs -> only_late ec parse (map s_txt ks) E ->
  rows <> [] -> Forall (fun row => List.length row = List.length ks /\ Forall data row) rows ->
  Forall2 (fun row v => means ec parse (placed ec) (nowhere (s_txt p) (map s_txt ks) e) (combine (map s_txt ks) row ++ gs) E v) rows vs ->
  exists c, evals ec parse (for_rows ks p rows) e0 s0 c e0 s0 /\
    forall fn file pos, evals ec parse fn e s c e s -> evals ec parse (NApply fn [tree E] [] file pos) e s (NList vs) e s.
Proof.
  intros Hb Hks Hnd Hpk Hva Hp1 Hp2 Hun Hgs Hfit Hne Hrows Hms.
  assert (Hrd : Forall (Forall data) rows) by (eapply Forall_impl; [|exact Hrows]; intros r H; apply H).
  eexists. split; [apply rows_defined; assumption|]. intros fn file pos Hfn.
  eapply late_called with (shift := placed ec) (rows := rows) (gs := gs) (e0 := e0) (s0 := s0); try eassumption; [apply placed_trim|apply rows_defined; assumption].
Qed.

(** ** Case: \k\v..\p.(($p ("p" "x\n y") 3) ($p () 4)) applied to (($len &k) (&v ? &k : g) g) *)
Definition late_ks := [raw (lit "k"); raw (lit "v")].
Definition late (t : string) : cexp := CParam RLate (raw (lit t)).
Definition late_arg : cexp := CList [CCall (raw (lit "len")) [late "k"] None 0; CCond (late "v") (late "k") (cpar "g"); cpar "g"].
Definition late_rows : list (list node) := [[va; NInt 3]; [NList []; NInt 0]].
Definition late_env : env := [[(lit "g", NInt 10)]].
Definition late_values := [NList [NInt 2; va; NInt 10]; NList [NInt 0; NInt 10; NInt 10]].
Lemma late_meaning row n w :
  (exists x y, row = [x; y] /\ b_len [x] st0 = Ok (NInt n, st0) /\ (forall st, b_len [x] st = Ok (NInt n, st)) /\ data x /\ data y /\ selects y x (NInt 10) w) ->
  means ec2 noparse (placed ec2) (nowhere (lit "p") (map s_txt late_ks) late_env) (combine (map s_txt late_ks) row ++ [(lit "g", NInt 10)]) late_arg (NList [NInt n; w; NInt 10]).
Proof.
  intros (x & y & -> & _ & Hl & Dx & Dy & Hs).
  change (combine (map s_txt late_ks) [x; y] ++ [(lit "g", NInt 10)]) with [(lit "k", x); (lit "v", y); (lit "g", NInt 10)].
  assert (Gk : gives [(lit "k", x); (lit "v", y); (lit "g", NInt 10)] (lit "k") x) by (apply (at_name []); intros []).
  assert (Gv : gives [(lit "k", x); (lit "v", y); (lit "g", NInt 10)] (lit "v") y) by (apply (at_name [(lit "k", x)]); intros [H|[]]; discriminate H).
  assert (Gg : gives [(lit "k", x); (lit "v", y); (lit "g", NInt 10)] (lit "g") (NInt 10)) by (apply (at_name [(lit "k", x); (lit "v", y)]); intros [H|[H|[]]]; discriminate H).
  apply ME_list. constructor; [|constructor; [|constructor; [|constructor]]].
  - apply ME_call with (vs := [x]); [constructor; [apply ME_param, Gk|constructor]| | |constructor].
    + split; [discriminate|]. split; [intros [H|[H|[]]]; discriminate H|]. constructor; [intros [H|[]]; discriminate H|constructor].
    + exists b_len, (NInt n). split; [intros imported; reflexivity|split; [exact Hl|reflexivity]].
  - eapply ME_cond; [apply ME_param, Gv|apply ME_param, Gk|apply ME_param, Gg|exact Hs].
  - apply ME_param, Gg.
Qed.
Lemma late_hypotheses :
  NoDup (map s_txt late_ks) /\ Forall (unknown late_env) (map s_txt late_ks) /\
  Forall (given_there (lit "p") (map s_txt late_ks) late_env) [(lit "g", NInt 10)] /\ only_late ec2 noparse (map s_txt late_ks) late_arg /\
  Forall (fun row => List.length row = List.length late_ks /\ Forall data row) late_rows /\
  Forall2 (fun row v => means ec2 noparse (placed ec2) (nowhere (lit "p") (map s_txt late_ks) late_env) (combine (map s_txt late_ks) row ++ [(lit "g", NInt 10)]) late_arg v) late_rows late_values.
Proof.
  split; [constructor; [intros [H|[]]; discriminate H|constructor; [intros []|constructor]]|].
  split; [constructor; [|constructor; [|constructor]]; (constructor; [intros [H|[]]; discriminate H|constructor])|].
  split. { constructor; [|constructor]. split; [discriminate|]. split; [intros [H|[H|[]]]; discriminate H|]. split; [constructor|].
    exists [], [(lit "g", NInt 10)], []. split; [|exists [], []; split; [reflexivity|intros []]]. split; [reflexivity|split; [constructor|left; reflexivity]]. }
  split. { cbn [only_late late_arg late cpar]. repeat split; try reflexivity; intros [H|[H|[]]]; discriminate H. }
  split. { constructor; [|constructor; [|constructor]]; (split; [reflexivity|]); constructor; [apply va_data| |constructor; constructor|]; (constructor; [constructor|constructor]). }
  constructor; [|constructor; [|constructor]]; apply late_meaning.
  - exists va, (NInt 3). split; [reflexivity|]. split; [reflexivity|]. split; [intros st; reflexivity|]. split; [apply va_data|]. split; [constructor|].
    split; [reflexivity|left]. split; [|reflexivity]. intros [H|[H|[H|[H|[H|[? [H ?]]]]]]]; discriminate H.
  - exists (NList []), (NInt 0). split; [reflexivity|]. split; [reflexivity|]. split; [intros st; reflexivity|]. split; [constructor; constructor|]. split; [constructor|].
    split; [reflexivity|right]. split; [|reflexivity]. right. left. reflexivity.
Qed.
Lemma late_case : evals ec2 noparse (NApply (for_rows late_ks (raw (lit "p")) late_rows) [tree late_arg] [] None 0) late_env st0 (NList late_values) late_env st0.
Proof. run 40%nat. Qed.
Lemma plain_case : evals ec2 noparse (NApply (for_rows late_ks (raw (lit "p")) late_rows) [NList [NVar (RList []) (raw (lit "k")); NVar RLate (raw (lit "k"))]] [] None 0) late_env st0
  (NList [NList [NAtom (raw (lit "k")); va]; NList [NAtom (raw (lit "k")); NList []]]) late_env st0.
Proof. run 40%nat. Qed.
