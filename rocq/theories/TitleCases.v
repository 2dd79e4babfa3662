(** * Cases of the title *)
From Coq Require Import String List NArith ZArith Bool.
From Verif Require Import PyStr PyStrFacts Ast Shell Eval Builtin Builtin2 Title TitleSpec TitleFacts TextSpec EnvSpec EvalSpec NameSpec NameFacts NameCases ConfSpec ConfFacts ReadFacts Pp PpCases KitCases EgCases.
Import ListNotations.
Open Scope N_scope.
Local Open Scope list_scope.

Definition title_world (output : string) : world := eg_world "yupp" "a.yu-c" "1.2" "now" output.
Definition title_run (output source : string) : Ast.res ppres := eg_run "a.yu-c" output "1.2" "now" source 0 false.

Lemma c_case : language_of (Some (lit "a.c")) false /\ source_named (Some (lit "a.yu-c")) (lit "a.yu-c") /\
  (exists cx, w_rest (title_world "a.c") = more_builtins cx (Some (lit "a.yu-c")) (titled (lit "yupp") (lit "1.2") (lit "now") (Some (lit "a.yu-c")) (Some (lit "a.c")) (fun _ => None))) /\
  Forall one_line [lit "yupp"; lit "1.2"; lit "a.yu-c"; lit "now"; lit "a.c"] /\ ~ In 47 (lit "yupp") /\ ~ In 47 (lit "1.2") /\ ~ In 47 (lit "now") /\ ~ In 47 (lit "a.c").
Proof.
  assert (No : forall c t, existsb (N.eqb c) t = false -> ~ In c t).
  { intros c t H K. apply not_true_iff_false in H. apply H, existsb_exists. exists c. split; [exact K|apply N.eqb_refl]. }
  assert (F : file_of (lit "a.c") (lit "a.c")) by (apply FN_alone, No; reflexivity).
  split; [|split; [|split; [exists (kit_pctx [] ""); unfold title_world, eg_world; cbv zeta; cbn [w_rest]; reflexivity|repeat split; try (apply No; reflexivity)]]].
  - apply (LO_other _ _ F). intros H. inversion H as [name p y _ Hp Hy E]. apply (f_equal (@rev N)) in E. rewrite rev_app_distr in E. cbn in E. injection E as E _. subst. destruct Hy; discriminate.
  - apply SN_file; [discriminate|]. apply FN_alone, No. reflexivity.
  - repeat constructor; apply No; reflexivity.
Qed.
Lemma runs : made (title_run "a.c" "($__TITLE__)") = Some (true, lit "/*  a.c was generated by yupp 1.2" ++ [10] ++ lit "    out of a.yu-c at now" ++ [10] ++ lit " */" ++ [10]) /\
  made (title_run "a.py" "($__TITLE__ 0)") = Some (true, lit "#  a.py was generated by yupp 1.2" ++ [10] ++ lit "#  out of a.yu-c" ++ [10]).
Proof. split; vm_compute; reflexivity. Qed.
Lemma follows_not : exists p t, title_run "a.c" "($set __OUTPUT_FILE__ ""b.py"")($__TITLE__ 0)" = Ok p /\ p_output p = Some (lit "b.py") /\ p_plain p = t ++ [10] /\ ~ python_comment t.
Proof.
  eexists _, _. split; [vm_compute; reflexivity|]. split; [reflexivity|]. split; [instantiate (1 := lit "/*  b.py was generated by yupp 1.2" ++ [10] ++ lit "    out of a.yu-c" ++ [10] ++ lit " */"); reflexivity|].
  intros [[r E] _]. discriminate E.
Qed.
Lemma ends_early : exists p t, title_run "a.c" "($set __OUTPUT_FILE__ ""b*/c"")($__TITLE__ 0)" = Ok p /\ p_plain p = t ++ [10] /\ ~ c_comment t.
Proof.
  eexists _, _. split; [vm_compute; reflexivity|]. split; [instantiate (1 := lit "/*  b*/c was generated by yupp 1.2" ++ [10] ++ lit "    out of a.yu-c" ++ [10] ++ lit " */"); reflexivity|].
  intros (u & E & H). apply (H 3%nat). exists (lit "  b"), (skipn 7 (lit "/*  b*/c was generated by yupp 1.2" ++ [10] ++ lit "    out of a.yu-c" ++ [10] ++ lit " *")). split; [|reflexivity].
  apply (app_inv_tail [47]). apply (app_inv_head [47; 42]). rewrite <- app_assoc. etransitivity; [symmetry; exact E|]. vm_compute. reflexivity.
Qed.
