(** * Parsing: C02, C03, C12 *)
From Coq Require Import List NArith ZArith Bool String.
From Verif Require Import PyStr Ast Lex LexSpec Parse ParseSpec ParseFacts3 ParseFacts4 ParseFacts5 ParseCases.
Import ListNotations.
Open Scope list_scope.
Open Scope N_scope.

(** ** C02: the parser always stops with a tree or an exception *)
(** The text [t] is registered under [key]; [Fuel] would be a parse that does not end. *)
Theorem C02_parser_terminates cx n key s d t :
  dict_get key (y_source s) = Some (d, t) -> no_imports t ->
  (exists l s', yuparse cx (S n) key s = Ok (l, s')) \/ (exists e, yuparse cx (S n) key s = Err e).
Proof. exact (parse_total cx n key s d t). Qed.
Print Assumptions C02_parser_terminates.
Example C02_case : exists l s' e,
  yuparse (session []) 1 (lit "main.yu") (started "($set f \x.[($x (f))] ) ($f 1 {2 + 2}) (`t) ) ]")%string = Ok (l, s') /\
  yuparse (session []) 1 (lit "main.yu") (started "($set f \x.[($x (f))]")%string = Err e /\
  no_imports (lit "($set f \x.[($x (f))]").
Proof. exact total_case. Qed.

(** ** C03: recorded positions point at the text they claim *)
Theorem C03_positions_are_right cx n key s l s' :
  no_numeral_files cx -> consistent cx s -> yuparse cx n key s = Ok (l, s') -> Forall (well_located (known s')) l.
Proof. exact (fun H => tree_located cx H n key s l s'). Qed.
Print Assumptions C03_positions_are_right.
Example C03_case : no_numeral_files (session []) /\
  consistent (session []) (started "a ($f [($x)] n \y.(add y 1))"%string) /\
  exists l s' x, yuparse (session []) 1 (lit "main.yu") (started "a ($f [($x)] n \y.(add y 1))"%string) = Ok (l, s') /\
    In x l /\ fragment x (Src (lit "add") (Some (lit "main.yu")) 19).
Proof. exact located_case. Qed.

(** Without the first hypothesis it fails: an evaluated import takes a number for
    its name and overwrites the text of a file of that name. *)
Theorem C03_numeral_file_refuted :
  ~ (forall cx n key s l s', consistent cx s -> yuparse cx n key s = Ok (l, s') -> Forall (well_located (known s')) l).
Proof. exact numeral_refuted. Qed.
Print Assumptions C03_numeral_file_refuted.

(** ** C12: a library is imported at most once *)
(** The first import by name reads the file, registers it and puts what it
    contains in the place of the import. *)
Theorem C12_first_import cx n k g name g' rest f p s c :
  identifier name -> Forall white g -> Forall white g' ->
  dict_mem (library name) (y_source s) = false -> c_read cx (lib_path cx (library name)) = Some c ->
  text_item cx (yuparse cx n) k (Src (import_text g name g' ++ rest) f p) s =
  match yuparse cx n (library name)
          (set_source (dict_set (library name) (DPath (lib_path cx (library name)), unify_eol c) (y_source s)) s) with
  | Ok (l, s') => Ok (Src rest f (p + Z.of_nat (List.length (import_text g name g'))), Some (enclose_import l), s')
  | Err e => Err e
  | Fuel => Fuel
  end.
Proof. exact (import_first cx n k g name g' rest f p s c). Qed.
Print Assumptions C12_first_import.

(** Afterwards the library is known ... *)
Theorem C12_imported_is_known cx n k g name g' rest f p s r s' :
  identifier name -> Forall white g -> Forall white g' ->
  text_item cx (yuparse cx n) k (Src (import_text g name g' ++ rest) f p) s = Ok (r, s') ->
  dict_mem (library name) (y_source s') = true.
Proof. exact (import_then_known cx n k g name g' rest f p s r s'). Qed.
Print Assumptions C12_imported_is_known.

(** ... it stays known whatever is parsed next ... *)
Theorem C12_known_stays_known cx n key s l s' name :
  yuparse cx n key s = Ok (l, s') -> dict_mem name (y_source s) = true -> dict_mem name (y_source s') = true.
Proof. exact (fun E => parse_keeps cx n key s l s' E name). Qed.
Print Assumptions C12_known_stays_known.

(** ... and importing a library that is known contributes nothing. *)
Theorem C12_second_import_is_empty cx n k g name g' rest f p s d :
  identifier name -> Forall white g -> Forall white g' ->
  dict_get source_empty (y_source s) = Some (d, []) -> dict_mem (library name) (y_source s) = true ->
  text_item cx (yuparse cx (S n)) k (Src (import_text g name g' ++ rest) f p) s =
  Ok (Src rest f (p + Z.of_nat (List.length (import_text g name g'))), Some [], s).
Proof. exact (import_again cx n k g name g' rest f p s d). Qed.
Print Assumptions C12_second_import_is_empty.
Example C12_case : exists l s',
  yuparse (session ring) 5 (lit "main.yu") (started ring_main) = Ok (l, s') /\
  texts_of l = [lit "A"; lit "B"; lit "C"; lit " "; lit " "; lit "!"] /\
  map fst (y_source s') = [source_empty; lit "main.yu"; lit "a.yu"; lit "b.yu"; lit "c.yu"].
Proof. exact ring_parse. Qed.

(** Importing by name always ends: for finitely many files, however they import
    each other, some depth of nested imports is never exceeded. *)
Theorem C12_imports_by_name_end cx files key s d0 d t :
  (forall p, c_read cx p <> None -> In p files) ->
  (forall p c, c_read cx p = Some c -> imports_by_name (unify_eol c)) ->
  dict_get source_empty (y_source s) = Some (d0, []) ->
  dict_get key (y_source s) = Some (d, t) -> imports_by_name t ->
  exists D, forall n, (D <= n)%nat ->
  (exists l s', yuparse cx n key s = Ok (l, s')) \/ (exists e, yuparse cx n key s = Err e).
Proof. exact (fun F C E => imports_terminate cx files F C key s d t (ex_intro _ d0 E)). Qed.
Print Assumptions C12_imports_by_name_end.
Example C12_end_case :
  (forall p, c_read (session ring) p <> None -> In p (map (fun x => lit (fst x)) ring)) /\
  (forall p c, c_read (session ring) p = Some c -> imports_by_name (unify_eol c)) /\
  imports_by_name (lit ring_main).
Proof. exact (conj ring_files (conj ring_clean ring_main_clean)). Qed.

(** Importing by a quoted file name has no such guard: a file that imports itself
    is parsed without end. *)
Theorem C12_quoted_import_refuted :
  ~ (forall cx key s t, known s key t -> exists n, yuparse cx n key s <> Fuel).
Proof. exact quoted_refuted. Qed.
Print Assumptions C12_quoted_import_refuted.
