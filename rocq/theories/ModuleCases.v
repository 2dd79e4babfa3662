(** * Concrete runs of skip through imports *)
From Coq Require Import List NArith ZArith Bool String.
From Verif Require Import PyStr LexSpec Ast Lex Parse ParseSpec ParseCases Eval EvalSpec EvalCases ModuleFacts.
Import ListNotations.
Open Scope list_scope.
Open Scope N_scope.

Definition skip_files : list (String.string * String.string) :=
  [("lib.yu", "b($skip)c($import other)d"); ("other.yu", "e")]%string.
Definition skip_main : String.string := "a($import lib)f($skip)g"%string.
Definition skip_tree : list node :=
  match yuparse (session skip_files) 4 (lit "main.yu") (started skip_main) with Ok (l, _) => l | _ => [] end.
Lemma skip_case :
  (exists st', yuparse (session skip_files) 4 (lit "main.yu") (started skip_main) = Ok (skip_tree, st')) /\
  List.length (filter (fun x => match x with NImportBegin => true | _ => false end) skip_tree) = 2%nat /\
  evals ec0 noparse (NText skip_tree 0 0) [] st0 (NRaw (lit "abf")) [] st0.
Proof.
  split; [eexists; vm_compute; reflexivity|]. split; [vm_compute; reflexivity|].
  exists 40%nat. vm_compute. reflexivity.
Qed.

(** A text generated by a Python expression is not a module of its own. *)
Definition generator : pctx :=
  Ctx false SkipNone (lit "main.yu") [] (fun _ => None) (fun t => t) (fun _ => Ok tt)
      (fun _ => Ok (lit "b($skip)c")) (fun _ => []).
Definition generated_main : String.string := "a($import {x})d"%string.
Definition generated_tree : list node :=
  match yuparse generator 4 (lit "main.yu") (started generated_main) with Ok (l, _) => l | _ => [] end.
Lemma generated_case :
  (exists st', yuparse generator 4 (lit "main.yu") (started generated_main) = Ok (generated_tree, st')) /\
  evals ec0 noparse (NText generated_tree 0 0) [] st0 (NRaw (lit "ab")) [] st0.
Proof.
  split; [eexists; vm_compute; reflexivity|].
  exists 40%nat. vm_compute. reflexivity.
Qed.
