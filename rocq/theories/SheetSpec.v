(** * Sources that import libraries

    What stands behind the text of a source: as in [ExprSpec.written], and the pieces of the
    libraries in the places of the imports. *)
From Coq Require Import List NArith Bool.
From Verif Require Import PyStr LexSpec Ast Parse ParseSpec PpSpec ProtectSpec QuoteSpec ConfSpec ExprSpec.
Import ListNotations.
Open Scope N_scope.

(** ** Contents: characters, and what comes in the place of a construct *)
Definition parts := list (char + list node).
Definition no_pieces (l : list node) : bool := match l with [] => true | _ => false end.
(** The pieces of a text: runs of characters and what stands between them; an import ends a run
    even if nothing comes in its place. *)
Fixpoint pieces (first : bool) (w : text) (d : parts) : list node :=
  match d with
  | [] => run first w
  | inl c :: d => pieces first (w ++ [c]) d
  | inr l :: d => let b := run first w ++ l in b ++ pieces (first && no_pieces b) [] d
  end.
(** what an import puts in its place *)
Definition in_place (l : list node) : list node := match l with [] => [] | _ => NImportBegin :: l ++ [NImportEnd] end.

(** ** The file of a library: the file of this name, or else the one in the first directory that has one *)
Section Files.
Variable read : text -> option text.
Inductive in_directories (lib : text) : list text -> text -> text -> Prop :=
| ID_here d ds t : read (path_join d lib) = Some t -> in_directories lib (d :: ds) (path_join d lib) t
| ID_later d ds p t : read (path_join d lib) = None -> in_directories lib ds p t -> in_directories lib (d :: ds) p t.
Inductive library_file (dirs : list text) (lib : text) : text -> text -> Prop :=
| LF_itself t : read lib = Some t -> library_file dirs lib lib t
| LF_directory p t : read lib = None -> in_directories lib dirs p t -> library_file dirs lib p t.
End Files.
(** ($import "file") *)
Definition import_file (g : text) (q : char) (body g' : text) : text := lit "($import" ++ g ++ q :: body ++ q :: g' ++ [41].
Definition script (path : text) : Prop := exists n, file_of path n /\ python_file n.
Inductive path_of (q : char) (body path : text) : Prop :=
| PO_unquoted : quote q -> literal_inside q body -> denotes (inside q) body path -> path_of q body path.

(** ** [sheet h kn t d kn']: the source [t], read when the files [kn] are known and with imports
    nested at most [h] deep, has the contents [d], and then the files [kn'] are known *)
Section Sheet.
Variables (python : bool) (m : skip_mode) (dirs : list text) (read : text -> option text).
Inductive sheet : nat -> list text -> text -> parts -> list text -> Prop :=
| SH_end h kn : sheet h kn [] [] kn
| SH_char h kn c r d kn' : permitted c -> c <> 34 -> c <> 39 -> ~ begins (lit "($") (c :: r) -> ~ begins (lit "(`") (c :: r) ->
    ~ comment_begins m (c :: r) -> (python = true -> ~ string_begins (c :: r)) -> sheet h kn r d kn' -> sheet h kn (c :: r) (inl c :: d) kn'
| SH_literal h kn q body r d kn' : python = false -> q = 34 \/ q = 39 -> literal_inside q body -> sheet h kn r d kn' ->
    sheet h kn (q :: body ++ q :: r) (inr [NStr (raw (q :: body ++ [q]))] :: d) kn'
| SH_python h kn w r d kn' : python = true -> python_literal w r -> sheet h kn r d kn' -> sheet h kn (w ++ r) (inr [NStr (raw w)] :: d) kn'
| SH_comment h kn c r d kn' : target_comment m c r -> sheet h kn r d kn' -> sheet h kn (c ++ r) (inr [NRemark (raw c)] :: d) kn'
| SH_quotation h kn o body r d kn' : quote_opening o -> Forall permitted body -> balanced body -> sheet h kn r d kn' ->
    sheet h kn (o ++ body ++ 41 :: r) (inr [NStr (raw body)] :: d) kn'
| SH_spelled h kn c t r d kn' : spelled_construct python m c t -> sheet h kn r d kn' -> sheet h kn (t ++ r) (inr [tree_construct c] :: d) kn'
(** a library that is known already *)
| SH_known h kn g name g' r d kn' : identifier name -> Forall white g -> Forall white g' -> In (library name) kn -> sheet (S h) kn r d kn' ->
    sheet (S h) kn (import_text g name g' ++ r) (inr [] :: d) kn'
(** a library that is not *)
| SH_library h kn g name g' p t u x kn1 r d kn' : identifier name -> Forall white g -> Forall white g' -> ~ In (library name) kn ->
    library_file read dirs (library name) p t -> unified t u -> sheet h (library name :: kn) u x kn1 -> sheet (S h) kn1 r d kn' ->
    sheet (S h) kn (import_text g name g' ++ r) (inr (in_place (pieces true [] x)) :: d) kn'
(** a file *)
| SH_file h kn g q body g' path p t u x kn1 r d kn' : python = false -> Forall white g -> Forall white g' -> path_of q body path ->
    ~ script path -> path <> lit "<null>" ->
    library_file read dirs path p t -> unified t u -> sheet h (path :: kn) u x kn1 -> sheet (S h) kn1 r d kn' ->
    sheet (S h) kn (import_file g q body g' ++ r) (inr (in_place (pieces true [] x)) :: d) kn'.
End Sheet.
