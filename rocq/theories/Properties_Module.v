(** * Files as modules: C22 *)
From Coq Require Import List NArith ZArith Bool String.
From Verif Require Import PyStr LexSpec Ast Lex Parse ParseSpec ParseCases Eval EvalSpec EvalCases ModuleFacts ModuleCases.
Import ListNotations.
Open Scope list_scope.
Open Scope N_scope.

(** ** C22: skip *)
(** Every file parses into a complete tree: the marks of the imports in it are
    closed in it, whatever the nesting. *)
Theorem C22_files_are_complete : forall cx n key st l st',
  yuparse cx n key st = Ok (l, st') -> complete l.
Proof. exact yuparse_complete. Qed.
Print Assumptions C22_files_are_complete.

(** An import by name puts the tree of a file between two marks. *)
Theorem C22_import_is_bracketed : forall cx n k g name g' rest f p s r l s',
  identifier name -> Forall white g -> Forall white g' ->
  text_item cx (yuparse cx n) k (Src (import_text g name g' ++ rest) f p) s = Ok (r, l, s') ->
  exists key s1 m, yuparse cx n key s1 = Ok (m, s') /\
    l = Some match m with [] => [] | _ => NImportBegin :: m ++ [NImportEnd] end.
Proof. exact import_bracketed. Qed.
Print Assumptions C22_import_is_bracketed.

(** So an item [x] of a file that evaluates to skip ends that file, whether the
    file is imported ([after] is what follows its import) or the main one. *)
Theorem C22_skip_ends_its_file : forall cx n key st st' ec parse a x m e s e1 s1,
  yuparse cx n key st = Ok (a ++ x :: m, st') -> complete a -> x <> NComment ->
  evals ec parse x e s NSkip e1 s1 ->
  (forall after ind, same_outcomes ec parse (NT (x :: m ++ NImportEnd :: after) ind) e s (NT after ind) e1 s1) /\
  (forall ind, same_outcomes ec parse (NT (x :: m) ind) e s (NT [] ind) e1 s1).
Proof. exact file_skips. Qed.
Print Assumptions C22_skip_ends_its_file.

Example C22_files_case :
  (exists st', yuparse (session skip_files) 4 (lit "main.yu") (started skip_main) = Ok (skip_tree, st')) /\
  List.length (filter (fun x => match x with NImportBegin => true | _ => false end) skip_tree) = 2%nat /\
  evals ec0 noparse (NText skip_tree 0 0) [] st0 (NRaw (lit "abf")) [] st0.
Proof. exact skip_case. Qed.

(** A text imported from a Python expression is not a module of its own: skip in
    it ends the importing file. *)
Example C22_generated_case :
  (exists st', yuparse generator 4 (lit "main.yu") (started generated_main) = Ok (generated_tree, st')) /\
  evals ec0 noparse (NText generated_tree 0 0) [] st0 (NRaw (lit "ab")) [] st0.
Proof. exact generated_case. Qed.
