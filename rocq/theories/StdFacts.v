(** * Runs over sources that import the standard library (proofs only) *)
From Coq Require Import List NArith ZArith Bool String Lia ZifyBool ZifyNat ZifyN.
From Verif Require Import PyStr PyStrFacts Ast Lex LexSpec LexFacts LexFacts2 Parse ParseSpec ParseFacts3 PpFacts HeaderFacts Final Shell ShellSpec Eval Builtin Builtin2 EnvSpec EvalSpec EvalFacts TrimSpec DefFacts CodecFacts Pp PpSpec PpCases ProtectCases ExprSpec DocSpec CoreSpec CoreFacts RunSpec RunFacts RunFacts2 RunCases SheetSpec SheetFacts StdParse Eg StdSpec.
Import ListNotations.
Open Scope list_scope.
Open Scope N_scope.

(** ** The library, read *)
Definition lib_file : text := Eval vm_compute in unify_eol (lit stdlib_yu).
Definition lib_nodes : list node := Eval vm_compute in
  match yuparse (Ctx false SkipNone [] [] (fun _ => None) (fun t => t) (fun _ => Ok tt) (fun t => Ok t) (fun _ => [])) 1 (lit "stdlib.yu")
          (St [(lit "stdlib.yu", (DNone, lib_file))] [] [] 0 [] [] None false [] [] []) with Ok (l, _) => l | _ => [] end.
Lemma library_reads main dirs rd unq pyi ei str n decl s : dict_get (lit "stdlib.yu") (y_source s) = Some (decl, lib_file) ->
  yuparse (Ctx false SkipNone main dirs rd unq pyi ei str) (S n) (lit "stdlib.yu") s = Ok (lib_nodes, s).
Proof.
  intros D. cbn [yuparse]. unfold yuparse_with, bind, get_st. rewrite D. unfold lib_file at 1. cbv iota. fold lib_file. cbn [c_main c_python].
  destruct (teqb main (lit "stdlib.yu")); vm_compute; reflexivity.
Qed.

(** ** The library, evaluated *)
Definition first_world : world := with_library 7 None (World (fun _ => None) (fun t => t) (fun _ => Err (Exn IOError "")) (fun _ => Err (Exn ValueError "")) (fun _ => [])
  (fun _ _ => None) (fun _ => None) (fun _ => Err (Exn SyntaxError "")) (fun _ _ => Err (Exn KeyError "")) (fun t => t) (fun _ => 0%Z) (fun _ => []) (lit "lib") (fun _ _ _ => lit "{}")).
Definition first_ec : ectx := run_ectx first_world (library_config true true [] 0) None None process0.
Definition frame_of (x : node) (e : env) : frame :=
  match yueval first_ec (fun _ _ => Fuel) 60 x e (St [] [] [] 0 [] [] None false [] [] []) with Ok (NEnv f, _, _) => f | _ => [] end.
Fixpoint envs (l : list node) (e : env) : env :=
  match l with
  | (NSet _ _ | NMacro _ _ _) as x :: r => envs r (frame_of x e :: e)
  | _ :: r => envs r e
  | [] => e
  end.
Definition lib_env : env := Eval vm_compute in skipn 2 (envs lib_nodes []).
Definition full_env (top : Z) : env := [(lit "INT_MIN", NInt (- top - 1))] :: [(lit "INT_MAX", NInt top)] :: lib_env.

Section Good.
Variables (ec : ectx) (parse : text -> M (list node)).
Hypothesis Hbr : e_browse ec = false.
Definition good (ind : indent) (l : list node) (e : env) (s : yst) (t : text) (s' : yst) : Prop :=
  exists w, block ec parse ind l e s w e s' /\ forallb is_term w = true /\ List.concat (map (plain ec) w) = t.
Lemma good_set ind a x y l e s c s1 t s' : evals ec parse (NSet (LAtom a) x) e s (NEnv [(s_txt a, c)]) e s1 ->
  good ind (trimmed_next ind (y :: l)) ([(s_txt a, c)] :: e) s1 t s' -> good ind (NSet (LAtom a) x :: y :: l) e s t s'.
Proof.
  intros H (w & B1 & B2 & B3). exists [NRaw t]. split; [|split; [reflexivity|cbn [map List.concat plain py_str]; apply app_nil_r]].
  eapply BL_scope; [discriminate|exact H|eapply scope_rest; eassumption].
Qed.
Lemma good_macro ind a ps body y l e s f t s' : evals ec parse (NMacro a ps body) e s (NEnv f) e s ->
  good ind (trimmed_next ind (y :: l)) (f :: e) s t s' -> good ind (NMacro a ps body :: y :: l) e s t s'.
Proof.
  intros H (w & B1 & B2 & B3). exists [NRaw t]. split; [|split; [reflexivity|cbn [map List.concat plain py_str]; apply app_nil_r]].
  eapply BL_scope; [discriminate|exact H|eapply scope_rest; eassumption].
Qed.
Lemma good_comment ind l e s t s' : good ind (trimmed_next ind l) e s t s' -> good ind (NComment :: l) e s t s'.
Proof. intros (w & B1 & B2). exists w. split; [|exact B2]. apply BL_comment, B1. Qed.
Lemma good_begin ind l e s t s' : good ind l e s t s' -> good ind (NImportBegin :: l) e s t s'.
Proof. intros (w & B1 & B2). exists w. split; [|exact B2]. eapply BL_nothing; [discriminate|exists 1%nat; reflexivity|right; left; reflexivity|exact B1]. Qed.
Lemma good_finish ind l e s t s' : good ind l e s t s' -> good ind (NImportEnd :: l) e s t s'.
Proof. intros (w & B1 & B2). exists w. split; [|exact B2]. eapply BL_nothing; [discriminate|exists 1%nat; reflexivity|right; right; reflexivity|exact B1]. Qed.
Lemma good_run ind s0 i cut l e s u t s' : plain ec (NPlain s0 i cut) = u -> good (indent_then ind (NPlain s0 i cut)) l e s t s' -> good ind (NPlain s0 i cut :: l) e s (u ++ t) s'.
Proof.
  intros Hu (w & B1 & B2 & B3). exists (NPlain s0 i cut :: w). split; [|split; [exact B2|cbn [map List.concat]; rewrite B3, Hu; reflexivity]].
  change (NPlain s0 i cut) with (as_applied ind (NPlain s0 i cut) (NPlain s0 i cut)) at 2. eapply BL_value; [discriminate|exists 1%nat; reflexivity|apply PC_value; exact Logic.I|exact B1].
Qed.
End Good.

(** the text that the library leaves *)
Definition lib_text (trim : bool) : text := if trim then [] else repeat 10 47.
Section Library.
Variables (main : text) (dirs : list text) (rd : text -> option text) (unq0 : text -> text) (pyi : text -> Ast.res unit) (ei : text -> Ast.res text) (str : node -> text).
Variables (trim : bool) (passage top : Z) (mcx : pctx) (input : option text) (rest : text -> option bval) (ask : text -> Ast.res (list text)) (ask2 : text -> frame -> Ast.res node)
  (fs : text -> text) (fi : text -> Z) (rp : node -> text) (parse : text -> M (list node)).
Notation ec := (ECtx (Ctx false SkipNone main dirs rd unq0 pyi ei str) trim false passage (builtin_with [] (fun _ _ => None) main (more_builtins mcx input (library_others rest)))
  (library_names ask) (library_python top ask2) fs fi rp).
Ltac probe := destruct trim; exists 60%nat; timeout 20 vm_compute; reflexivity.
Notation at_env k := (skipn (List.length lib_env - k) lib_env).
Notation gives_frame i k := (forall s, evals ec parse (nth i lib_nodes NNone) (at_env k) s (NEnv (nth (List.length lib_env - S k) lib_env [])) (at_env k) s).
Lemma f2 : gives_frame 2%nat 0%nat. Proof. intros s. probe. Qed.
Lemma f6 : gives_frame 6%nat 1%nat. Proof. intros s. probe. Qed.
Lemma f10 : gives_frame 10%nat 2%nat. Proof. intros s. probe. Qed.
Lemma f14 : gives_frame 14%nat 3%nat. Proof. intros s. probe. Qed.
Lemma f18 : gives_frame 18%nat 4%nat. Proof. intros s. probe. Qed.
Lemma f22 : gives_frame 22%nat 5%nat. Proof. intros s. probe. Qed.
Lemma f26 : gives_frame 26%nat 6%nat. Proof. intros s. probe. Qed.
Lemma f28 : gives_frame 28%nat 7%nat. Proof. intros s. probe. Qed.
Lemma f32 : gives_frame 32%nat 8%nat. Proof. intros s. probe. Qed.
Lemma f36 : gives_frame 36%nat 9%nat. Proof. intros s. probe. Qed.
Lemma f40 : gives_frame 40%nat 10%nat. Proof. intros s. probe. Qed.
Lemma f44 : gives_frame 44%nat 11%nat. Proof. intros s. probe. Qed.
Lemma f46 : gives_frame 46%nat 12%nat. Proof. intros s. probe. Qed.
Lemma f50 : gives_frame 50%nat 13%nat. Proof. intros s. probe. Qed.
Lemma f54 : gives_frame 54%nat 14%nat. Proof. intros s. probe. Qed.
Lemma f58 : gives_frame 58%nat 15%nat. Proof. intros s. probe. Qed.
Lemma f60 s : evals ec parse (nth 60 lib_nodes NNone) lib_env s (NEnv [(lit "INT_MAX", NInt top)]) lib_env s. Proof. probe. Qed.
Lemma f62 s : evals ec parse (nth 62 lib_nodes NNone) ([(lit "INT_MAX", NInt top)] :: lib_env) s (NEnv [(lit "INT_MIN", NInt (- top - 1))]) ([(lit "INT_MAX", NInt top)] :: lib_env) s.
Proof. destruct trim; exists 60%nat; reflexivity. Qed.
Lemma good_frame i k ind y l s t s' : nth i lib_nodes NNone <> NComment -> gives_frame i k -> at_env (S k) = nth (List.length lib_env - S k) lib_env [] :: at_env k ->
  good ec parse ind (trimmed_next ind (y :: l)) (at_env (S k)) s t s' -> good ec parse ind (nth i lib_nodes NNone :: y :: l) (at_env k) s t s'.
Proof.
  intros Hx Hf He (w & B1 & B2 & B3). exists [NRaw t]. split; [|split; [reflexivity|cbn [map List.concat plain py_str]; apply app_nil_r]].
  rewrite He in B1. eapply BL_scope; [exact Hx|exact (Hf s)|apply (scope_rest ec parse eq_refl) with (ws := w); assumption].
Qed.
Ltac comment := apply good_comment; cbn [trimmed_next].
Ltac run := eapply good_run; [reflexivity|]; cbn [indent_then].
Ltac scope i k F := apply (good_frame i k); [discriminate|exact F|reflexivity|cbn [trimmed_next]].
Lemma library_good ex s t s' : good ec parse (IndStr []) ex (full_env top) s t s' -> good ec parse (IndStr []) (NImportBegin :: lib_nodes ++ NImportEnd :: ex) [] s (lib_text trim ++ t) s'.
Proof.
  intros G.
  enough (K : exists u, good ec parse (IndStr []) (NImportBegin :: lib_nodes ++ NImportEnd :: ex) [] s u s' /\ u = lib_text trim ++ t) by (destruct K as (u & K & <-); exact K).
  eexists. split.
  - unfold lib_nodes. cbn [app]. change (@nil frame) with (at_env 0).
    apply good_begin.
    comment.
    run.
    scope 2%nat 0%nat f2.
    run.
    comment.
    run.
    scope 6%nat 1%nat f6.
    run.
    comment.
    run.
    scope 10%nat 2%nat f10.
    run.
    comment.
    run.
    scope 14%nat 3%nat f14.
    run.
    comment.
    run.
    scope 18%nat 4%nat f18.
    run.
    comment.
    run.
    scope 22%nat 5%nat f22.
    run.
    comment.
    run.
    scope 26%nat 6%nat f26.
    run.
    scope 28%nat 7%nat f28.
    run.
    comment.
    run.
    scope 32%nat 8%nat f32.
    run.
    comment.
    run.
    scope 36%nat 9%nat f36.
    run.
    comment.
    run.
    scope 40%nat 10%nat f40.
    run.
    comment.
    run.
    scope 44%nat 11%nat f44.
    run.
    scope 46%nat 12%nat f46.
    run.
    comment.
    run.
    scope 50%nat 13%nat f50.
    run.
    comment.
    run.
    scope 54%nat 14%nat f54.
    run.
    comment.
    run.
    scope 58%nat 15%nat f58.
    run.
    eapply good_set; [reflexivity|exact (f60 s)|]; cbn [trimmed_next].
    run.
    eapply good_set; [reflexivity|exact (f62 s)|]; cbn [trimmed_next].
    run.
    apply good_finish.
    exact G.
  - destruct trim; reflexivity.
Qed.

(** ** The environment is the one that the definitions describe *)
Lemma one_value n v c g e : data c -> bare c = v -> env_for ec parse g e -> env_for ec parse ((n, EValue v) :: g) ([(n, c)] :: e).
Proof. intros D E H. apply (EN_values ec parse [(n, EValue v)] [(n, c)]); [|exact H]. constructor; [split; [reflexivity|split; assumption]|constructor]. Qed.
Lemma one_open n c g e : env_for ec parse g e -> env_for ec parse ((n, EOpen) :: g) ([(n, c)] :: e).
Proof. intros H. apply (EN_values ec parse [(n, EOpen)] [(n, c)]); [|exact H]. constructor; [split; [reflexivity|exact Logic.I]|constructor]. Qed.
Definition no_state : yst := St [] [] [] 0 [] [] None false [] [] [].
Lemma raw_steady t : steady ec parse (NRaw t).
Proof. apply data_steady. constructor. Qed.
Ltac distinct := repeat first [ apply NoDup_nil | apply NoDup_cons; [cbn [In]; intuition discriminate|] ].
Definition params_at (i : nat) := match nth i lib_nodes NNone with NSet _ (NLambda bd _) => bd | _ => [] end.
Definition body_at (i : nat) := match nth i lib_nodes NNone with NSet _ (NLambda _ x) => x | _ => NNone end.
Ltac parameter := first [ apply DE_end | apply DE_plain | apply DE_default; [discriminate|exists 5%nat; reflexivity|apply raw_steady|] ].
Ltac function i df := apply EN_function with (s0 := no_state) (bd := params_at i) (x := body_at i) (dflt' := df);
  [ | reflexivity | reflexivity
  | cbn; repeat parameter | repeat constructor | distinct | discriminate | destruct trim; exists 60%nat; vm_compute; reflexivity | discriminate ].
Ltac macro := apply EN_macro; [|distinct].
Lemma library_env : env_for ec parse (library_defs top) (full_env top).
Proof.
  unfold library_defs, full_env, lib_env.
  apply one_value; [constructor|reflexivity|]. apply one_value; [constructor|reflexivity|].
  apply one_open. apply one_open. function 50%nat (@nil (text * node)). macro. macro. macro. macro. macro.
  function 28%nat (@nil (text * node)). apply one_value; [constructor|reflexivity|]. macro. macro. apply one_open.
  function 10%nat [(lit "then", NRaw []); (lit "else", NRaw [])]. function 6%nat [(lit "then", NRaw []); (lit "else", NRaw [])]. macro. constructor.
Qed.
End Library.
