(** * Functions that call functions: theorems in the form of Properties_Use.v, and cases *)
From Coq Require Import List NArith ZArith Bool String Lia ZifyBool ZifyNat ZifyN.
From Verif Require Import PyStr PyStrFacts Ast Lex Parse Final Shell Eval Builtin EnvSpec EnvFacts EvalSpec EvalFacts TrimSpec TrimCases EvalCases ApplyCases Pp PpSpec PpCases CoreSpec CoreFacts CoreCases RunSpec RunFacts RunCases UseSpec UseFacts4.
Import ListNotations.
Open Scope list_scope.
Lemma call_value ec parse free parameter fs e gs E v s : e_browse ec = false -> in_force ec parse free parameter fs e ->
  Forall (fun b => data (snd b) /\ known e (fst b) (snd b)) gs -> umeans ec parse (placed ec) free parameter fs [] gs [] E v ->
  evals ec parse (utree E) e s v e s.
Proof. intros Hb. eapply use_value; [apply placed_trim|exact Hb]. Qed.
Lemma defined_value ec parse free parameter fs e0 s0 F bd dflt vs w : e_browse ec = false -> in_force ec parse free parameter fs e0 ->
  Forall (fun b => data (snd b) /\ known e0 (fst b) (snd b)) (f_known F) -> declares ec parse e0 s0 bd (f_params F) dflt ->
  f_params F <> [] -> NoDup (f_params F) -> Forall parameter (f_params F) -> simple_choices (f_body F) ->
  umeans ec parse (placed ec) free parameter fs (f_params F) (f_known F) (combine (f_params F) vs) (f_body F) w ->
  List.length (f_params F) = List.length vs -> Forall data vs ->
  exists c, evals ec parse (NLambda bd (utree (f_body F))) e0 s0 c e0 s0.
Proof.
  intros Hb HF Hg Hde Hne Hnd Hpa Hsc D. revert D. eapply (definition_value ec parse (placed ec) (placed_trim ec) Hb); eassumption.
Qed.

(** ** Case: three functions, each of which calls the one before *)
Notation uec := run_ec.
Definition uname (t : string) : uexp := UName (RList []) (raw (lit t)).
Definition ubuilt (f : string) (l : list uexp) : uexp := UCall (raw (lit f)) l None 0.
Definition uuse (f : string) (l : list uexp) : uexp := UUse (raw (lit f)) l None 0.
(* twice = \x.($ add x x);  area = \w.\h.(w ? ($ mul ($ twice w) h) : k);  label = \n.[v($ n) = ($ area n 3);] *)
Definition twice : ufun := Fun [lit "x"] (ubuilt "add" [uname "x"; uname "x"]) [].
Definition area : ufun := Fun [lit "w"; lit "h"] (UCond (uname "w") (ubuilt "mul" [uuse "twice" [uname "w"]; uname "h"]) (uname "k")) [(lit "k", NInt 10)].
Definition label : ufun := Fun [lit "n"]
  (UText [ULit (raw (lit "v")) IndNone; UShow (uname "n") None 0; ULit (raw (lit " = ")) IndNone; uuse "area" [uname "n"; UValue (NInt 3)]; ULit (raw (lit ";")) IndNone] 0 0) [].
Definition ufree (n : text) : Prop := n = lit "add" \/ n = lit "mul".
Definition uparam (n : text) : Prop := In n [lit "x"; lit "w"; lit "h"; lit "n"].
Definition closure_of (f : string) (F : ufun) (e : env) : node :=
  match yueval uec noparse 30 (NLambda (map (fun p => ([], raw p, NNone)) (f_params F)) (utree (f_body F))) ([(lit f, NBound)] :: e) st0 with
  | Ok (v, _, _) => v
  | _ => NNone
  end.
Definition e_k : env := [[(lit "k", NInt 10)]].
Definition e_twice : env := [(lit "twice", closure_of "twice" twice e_k)] :: e_k.
Definition e_area : env := [(lit "area", closure_of "area" area e_twice)] :: e_twice.
Definition e_label : env := [(lit "label", closure_of "label" label e_area)] :: e_area.
Definition three : list (text * ufun) := [(lit "label", label); (lit "area", area); (lit "twice", twice)].
Ltac differ := let K := fresh in intros K; repeat destruct K as [K|K]; try discriminate K; try contradiction K; try exact K.
Ltac distinct := repeat (constructor; [differ|]); constructor.
Lemma plain_declares ec parse e s ps : map (fun p => param_name (raw p)) ps = ps -> declares ec parse e s (map (fun p => ([], raw p, NNone)) ps) ps [].
Proof. induction ps as [|p ps IH]; cbn [map]; intros K; [constructor|]. injection K as K1 K2. rewrite <- K1 at 2. apply DE_plain, IH, K2. Qed.
Lemma three_force : in_force uec noparse ufree uparam three e_label.
Proof.
  assert (K0 : in_force uec noparse ufree uparam [] e_k).
  { constructor. intros n [-> | ->]; (split; [constructor; [differ|constructor]|differ]). }
  assert (K1 : in_force uec noparse ufree uparam [(lit "twice", twice)] e_twice).
  { eapply definition_counts with (s0 := st0); [exact K0|differ|differ|differ|differ|constructor|constructor|discriminate|distinct|differ| |apply plain_declares; reflexivity|exists 30%nat; vm_compute; reflexivity].
    repeat (constructor; [cbn; tauto|]); constructor. }
  assert (K2 : in_force uec noparse ufree uparam [(lit "area", area); (lit "twice", twice)] e_area).
  { eapply definition_counts with (s0 := st0); [exact K1|differ|differ|differ|differ| | |discriminate|distinct|differ| |apply plain_declares; reflexivity|exists 30%nat; vm_compute; reflexivity].
    - constructor; [differ|constructor].
    - constructor; [|constructor]. split; [constructor|]. apply lookup_known. reflexivity.
    - repeat (constructor; [cbn; tauto|]); constructor. }
  eapply definition_counts with (s0 := st0); [exact K2|differ|differ|differ|differ| | |discriminate|distinct|differ| |apply plain_declares; reflexivity|exists 30%nat; vm_compute; reflexivity].
  - constructor; [differ|constructor; [differ|constructor]].
  - constructor.
  - repeat (constructor; [cbn; tauto|]); constructor.
Qed.
Lemma placed_nothing ec i u w : u = w -> (forallb (fun c => negb (py_isbreak c)) u = true) -> u <> [] -> trim true i u = w -> placed ec i u w.
Proof.
  intros -> H1 H2 H3. destruct (e_trim ec) eqn:E; [|unfold placed; rewrite E; reflexivity].
  assert (J : join [10%N] [w] = w) by reflexivity. rewrite <- J at 1. apply placed_lines'; [exact E|discriminate| |rewrite J; exact H3]. cbn [forallb]. rewrite H1. reflexivity.
Qed.
Lemma built2 op f (a b c : Z) : (forall imported, e_builtin uec imported (lit op) = Some (BFun f)) -> (forall st, f [NInt a; NInt b] st = Ok (NInt c, st)) ->
  function_gives uec (lit op) [NInt a; NInt b] (NInt c).
Proof. intros H1 H2. exists f, (NInt c). split; [exact H1|]. split; [exact H2|reflexivity]. Qed.
Definition label_call : uexp := uuse "label" [UValue (NInt 5)].
Lemma label_means : umeans uec noparse (placed uec) ufree uparam three [] [] [] label_call (NRaw (lit "v5 = 30;")).
Proof.
  eapply UM_use with (later := []) (F := label); [reflexivity|constructor; [apply UM_value; constructor|constructor]|reflexivity|constructor; [intros []|constructor]|repeat constructor|repeat constructor|].
  cbn [f_params f_known f_body combine label app].
  eapply UM_text with (vs := [NPlain (raw (lit "v")) IndNone false; NInt 5; NPlain (raw (lit " = ")) IndNone false; NInt 30; NPlain (raw (lit ";")) IndNone false]).
  - constructor; [apply UM_lit|]. constructor; [eapply UM_show; [apply UM_parameter, at_front|apply VT_int]|]. constructor; [apply UM_lit|]. constructor; [|constructor; [apply UM_lit|constructor]].
    eapply UM_use with (later := []) (F := area) (vs := [NInt 5; NInt 3]); [reflexivity| |reflexivity| | |repeat constructor|].
    + constructor; [apply UM_parameter, at_front|]. constructor; [apply UM_value; constructor|constructor].
    + constructor; [differ|constructor; [differ|constructor]].
    + repeat constructor.
    + cbn [f_params f_known f_body combine area app]. eapply UM_cond with (vc := NInt 5) (va := NInt 30) (vb := NInt 10); [apply UM_parameter, at_front| |apply UM_known; [differ|apply at_front]|].
      * eapply UM_call with (vs := [NInt 10; NInt 3]); [|right; reflexivity|apply built2 with (f := b_mul); reflexivity|constructor].
        constructor; [|constructor; [apply UM_parameter, at_next; [discriminate|apply at_front]|constructor]].
        eapply UM_use with (later := []) (F := twice) (vs := [NInt 5]); [reflexivity|constructor; [apply UM_parameter, at_front|constructor]|reflexivity|constructor; [differ|constructor]|repeat constructor|repeat constructor|].
        cbn [f_params f_known f_body combine twice app]. eapply UM_call with (vs := [NInt 5; NInt 5]); [|left; reflexivity|apply built2 with (f := b_add); reflexivity|constructor].
        repeat (constructor; [apply UM_parameter, at_front|]). constructor.
      * split; [reflexivity|]. left. split; [|reflexivity]. intros [K|[K|[K|[K|[K|(t & K & _)]]]]]; discriminate K.
  - repeat (constructor; [intros []|]). constructor.
  - change (lit "v5 = 30;") with (lit "v" ++ lit "5" ++ lit " = " ++ lit "30" ++ lit ";" ++ []).
    apply WR_other; [intros []|apply SH_plain|]. eapply WR_applied; [exact Logic.I|apply SH_value, VT_int|apply placed_nothing; [reflexivity|reflexivity|discriminate|reflexivity]|].
    apply WR_other; [intros []|apply SH_plain|]. eapply WR_applied; [exact Logic.I|apply SH_value, VT_int|apply placed_nothing; [reflexivity|reflexivity|discriminate|reflexivity]|].
    apply WR_other; [intros []|apply SH_plain|]. constructor.
Qed.
Lemma label_case : in_force uec noparse ufree uparam three e_label /\ umeans uec noparse (placed uec) ufree uparam three [] [] [] label_call (NRaw (lit "v5 = 30;")) /\
  evals uec noparse (utree label_call) e_label st0 (NRaw (lit "v5 = 30;")) e_label st0.
Proof. split; [exact three_force|]. split; [exact label_means|]. exists 60%nat. vm_compute. reflexivity. Qed.

(** ** Whole runs *)
Notation run_of s := (pp world0 run_config 1 90 (lit s) (Some (lit "a.yu-c")) (Some (lit "a.c")) process0).
Lemma chain_run : run_of "($set k 10)($set twice \x.($ add x x))($set area \w.\h.($ ($ mul ($ twice w) h) ? w | k))($set label \n.[v($ n) = ($ area n 3);])($ label 5) ($ label 0)" =
  Ok (PP true (lit "v5 = 30; v0 = 10;") None None false 0).
Proof. vm_compute. reflexivity. Qed.
(* the parameter of f is called like the second parameter of minus, that of h is not *)
Lemma capture_run : run_of "($set minus \x.\y.($ sub x y))($set f \y.($ minus y 2))($set h \z.($ minus z 2))($ minus 7 2) ($ f 7) ($ h 7)" =
  Ok (PP true (lit "5 0 5") None None false 0).
Proof. vm_compute. reflexivity. Qed.
Lemma nested_run : run_of "($set g \y.($ ($ y ? y | 7) ? y | 9))($set f \x.($ g x))($ g 5) ($ f 5)" = Ok (PP true (lit "5 y") None None false 0).
Proof. vm_compute. reflexivity. Qed.
