(** * Sources that begin with the standard library: C61 *)
From Coq Require Import List NArith ZArith Bool String.
From Verif Require FormatSpec TextSpec.
From Verif Require Import PyStr LexSpec Ast Final Shell ShellSpec EnvSpec EvalSpec Eval Parse ParseSpec PpSpec Pp PpCases CoreSpec RunSpec SheetSpec Eg StdSpec StdRun StdCases ConfSpec ReadStd.
Import ListNotations.
Open Scope list_scope.
Open Scope N_scope.

(** ** C61: the standard library defines what it documents *)
(** The source [t] begins with ($import stdlib), and the library is found: it is
    the file lib/stdlib.yu of the project. Then the rest [u] of the source, of
    contents [x], means what it means behind the definitions [library_defs]; the
    run yields this, cleaned up, without a failure, behind the line ends that the
    library leaves if white space is not trimmed. The rest may import more, up to
    the depth [h]. *)
Theorem C61_run_with_the_library w top trim reduce dirs passage h d g g' t u x kn' out fb input output uniq p key all :
  let w' := with_library top input w in let cfg := library_config trim reduce dirs passage in
  language_of output false -> source_named input key -> searched dirs (w_lib w) input all ->
  unified t (import_text g (lit "stdlib") g' ++ u) -> Forall white g -> Forall white g' ->
  library_file (w_read w) all (lit "stdlib.yu") p (lit stdlib_yu) ->
  sheet false SkipNone all (w_read w) h [lit "stdlib.yu"; key; lit "<null>"] u x kn' -> (h <= S d)%nat ->
  key <> lit "<null>" -> key <> lit "stdlib.yu" ->
  page (run_ectx w' cfg input output (Proc [] uniq)) (library_defs top) (IndStr []) (Feedback None false) (pieces false [] x) out fb ->
  exists n0, forall n, (n0 <= n)%nat -> pp w' cfg (S (S d)) n t input output (Proc [] uniq) =
    Ok (PP true (replace_steady (reduce_emptiness reduce ((if trim then [] else repeat 10 47) ++ out))) None (f_output fb) (f_repeat fb) 0).
Proof. exact (read_library_run w top trim reduce dirs passage h d g g' t u x kn' out fb input output uniq p key all). Qed.
Print Assumptions C61_run_with_the_library.
Example C61_source : lib_main = lit "($import stdlib)($ def DEBUG)" ++ 10 :: lit "($ if DEBUG 2 3)" ++ 10 :: lit "($ BIN (`1010))" /\ lib_main = import_text [32] (lit "stdlib") [] ++ lib_source.
Proof. exact (conj lib_texts eq_refl). Qed.
Example C61_found : language_of lib_output false /\ source_named lib_input (lit "a.yu-c") /\ searched [] (w_lib lib_world) lib_input [[]; lit "lib"] /\
  library_file (w_read lib_world) [[]; lit "lib"] (lit "stdlib.yu") (lit "lib/stdlib.yu") (lit stdlib_yu).
Proof. exact (conj lib_language lib_found'). Qed.
Example C61_sheet : sheet false SkipNone [[]; lit "lib"] (w_read lib_world) 0 [lit "stdlib.yu"; lit "a.yu-c"; lit "<null>"] lib_source lib_parts [lit "stdlib.yu"; lit "a.yu-c"; lit "<null>"].
Proof. exact (lib_sheet _ _ _). Qed.
Example C61_page : page (run_ectx (with_library lib_top lib_input lib_world) lib_config lib_input lib_output process0) (library_defs lib_top) (IndStr []) (Feedback None false)
  (pieces false [] lib_parts) (lit "#define DEBUG" ++ 10 :: lit "2" ++ 10 :: lit "10") (Feedback None false).
Proof. exact lib_page. Qed.
Example C61_computed : pp (with_library lib_top lib_input lib_world) lib_config 3 60 lib_main lib_input lib_output process0 =
  Ok (PP true (lit "#define DEBUG" ++ 10 :: lit "2" ++ 10 :: lit "10") None None false 0).
Proof. exact lib_computed. Qed.

(** ($if c a b) is a if c is true, b if not; a leg that is not given is empty.
    [later]: whatever else is defined behind the library. *)
Theorem C61_if ec top later r a c args vc vs v1 v2 w u : s_txt a = lit "if" -> ~ In (lit "if") (names later) ->
  value ec (InText (later ++ library_defs top)) c vc -> all_values ec (InText (later ++ library_defs top)) args vs ->
  vs = [] /\ v1 = NRaw [] /\ v2 = NRaw [] \/ vs = [v1] /\ v2 = NRaw [] \/ vs = [v1; v2] -> selects vc v1 v2 w -> value_text w u ->
  value ec (InText (later ++ library_defs top)) (NApply (NVar r a) (c :: args) [] None 0) w.
Proof. exact (use_if ec top later r a c args vc vs v1 v2 w u). Qed.
Print Assumptions C61_if.
(** ($unless c a b) is b if c is true, a if not *)
Theorem C61_unless ec top later r a c args vc vs v1 v2 w u : s_txt a = lit "unless" -> ~ In (lit "unless") (names later) ->
  value ec (InText (later ++ library_defs top)) c vc -> all_values ec (InText (later ++ library_defs top)) args vs ->
  vs = [] /\ v1 = NRaw [] /\ v2 = NRaw [] \/ vs = [v1] /\ v2 = NRaw [] \/ vs = [v1; v2] -> selects vc v2 v1 w -> value_text w u ->
  value ec (InText (later ++ library_defs top)) (NApply (NVar r a) (c :: args) [] None 0) w.
Proof. exact (use_unless ec top later r a c args vc vs v1 v2 w u). Qed.
Print Assumptions C61_unless.
(** INT_MAX and INT_MIN *)
Theorem C61_largest ec top later r a : s_txt a = lit "INT_MAX" -> ~ In (lit "INT_MAX") (names later) ->
  value ec (InText (later ++ library_defs top)) (NVar r a) (NInt top).
Proof. exact (use_max ec top later r a). Qed.
Print Assumptions C61_largest.
Theorem C61_smallest ec top later r a : s_txt a = lit "INT_MIN" -> ~ In (lit "INT_MIN") (names later) ->
  value ec (InText (later ++ library_defs top)) (NVar r a) (NInt (- top - 1)).
Proof. exact (use_min ec top later r a). Qed.
Print Assumptions C61_smallest.
(** ($BIN ds) is the number that the digits ds are in base 2 *)
Theorem C61_binary ec top later r a x v ds : s_txt a = lit "BIN" -> ~ In (lit "BIN") (names later) -> ~ In (lit "atoi") (names later) -> TextSpec.offers ec (lit "atoi") ->
  value ec (InText (later ++ library_defs top)) x v -> TextSpec.string_value v ds -> ds <> [] -> Forall (fun c => c = 48 \/ c = 49) ds ->
  value ec (InText (later ++ library_defs top)) (NApply (NVar r a) [x] [] None 0) (NInt (LexSpec.value 2 ds)).
Proof. exact (use_bin ec top later r a x v ds). Qed.
Print Assumptions C61_binary.
(** ($define s b) is a macro of C: #define, s and b, with a backslash at the end of
    all lines but the last *)
Theorem C61_define ec top later r a x y v1 v2 t1 t2 u1 u2 l out : s_txt a = lit "define" ->
  Forall (fun n => ~ In n (names later)) [lit "define"; lit "__EOL__"; lit "join"; lit "split"; lit "unq"] ->
  TextSpec.offers ec (lit "join") -> TextSpec.offers ec (lit "split") -> TextSpec.offers ec (lit "unq") ->
  value ec (InText (later ++ library_defs top)) x v1 -> value ec (InText (later ++ library_defs top)) y v2 -> value_text v1 t1 -> value_text v2 t2 -> placed ec [] t1 u1 -> placed ec [] t2 u2 ->
  TextSpec.parts [10] (lit "#define " ++ u1 ++ lit " " ++ u2) l -> TextSpec.joined (lit " \" ++ [10]) l out ->
  value ec (InText (later ++ library_defs top)) (NApply (NVar r a) [x; y] [] None 0) (NRaw out).
Proof. exact (use_define ec top later r a x y v1 v2 t1 t2 u1 u2 l out). Qed.
Print Assumptions C61_define.
Example C61_define_case : value lib_ec (InText (library_defs lib_top)) (NApply (NVar (RList []) (raw (lit "define"))) [NStr (raw (lit "f(x)")); NStr (raw (lit "a" ++ 10 :: lit "b"))] [] None 0)
    (NRaw (lit "#define f(x) a \" ++ 10 :: lit "b")) /\
  pp (with_library lib_top lib_input lib_world) lib_config 3 60 (lit "($import stdlib)($ define (`f(x)) (`a" ++ 10 :: lit "b))") lib_input lib_output process0 =
    Ok (PP true (lit "#define f(x) a \" ++ 10 :: lit "b") None None false 0).
Proof. exact define_case. Qed.
(** ($def N) leaves #define N, and N is 1 from then on *)
Theorem C61_def ec top later r a x val n fb rest t fb' : s_txt a = lit "def" ->
  c_python (e_parse ec) = false -> c_skip (e_parse ec) = SkipNone -> TextSpec.offers ec (lit "unq") ->
  ~ In (lit "def") (names later) -> ~ In (lit "unq") (names later) -> identifier n -> n <> lit "unq" -> n <> lit "__OUTPUT_FILE__" ->
  value ec (InText (later ++ library_defs top)) x val -> FormatSpec.inserts val n ->
  page ec ((n, EValue (NInt 1)) :: later ++ library_defs top) IndFalse fb rest t fb' ->
  page ec (later ++ library_defs top) (IndStr []) fb (NApply (NVar r a) [x] [] None 0 :: rest) ((if e_trim ec then [] else [10]) ++ lit "#define " ++ n ++ t) fb'.
Proof. exact (use_def ec top later r a x val n fb rest t fb'). Qed.
Print Assumptions C61_def.
(** ($undef N) leaves #undef N, and N is 0 from then on *)
Theorem C61_undef ec top later r a x val n fb rest t fb' : s_txt a = lit "undef" ->
  c_python (e_parse ec) = false -> c_skip (e_parse ec) = SkipNone -> TextSpec.offers ec (lit "unq") ->
  ~ In (lit "undef") (names later) -> ~ In (lit "unq") (names later) -> identifier n -> n <> lit "unq" -> n <> lit "__OUTPUT_FILE__" ->
  value ec (InText (later ++ library_defs top)) x val -> FormatSpec.inserts val n ->
  page ec ((n, EValue (NInt 0)) :: later ++ library_defs top) IndFalse fb rest t fb' ->
  page ec (later ++ library_defs top) (IndStr []) fb (NApply (NVar r a) [x] [] None 0 :: rest) ((if e_trim ec then [] else [10]) ++ lit "#undef  " ++ n ++ t) fb'.
Proof. exact (use_undef ec top later r a x val n fb rest t fb'). Qed.
Print Assumptions C61_undef.
(** A run of this kind offers the functions that the library uses *)
Example C61_offered w top trim reduce dirs passage input output uniq :
  Forall (fun n => TextSpec.offers (run_ectx (with_library top input w) (library_config trim reduce dirs passage) input output (Proc [] uniq)) (lit n)) ["atoi"; "join"; "split"; "unq"]%string.
Proof. exact (run_offers w top trim reduce dirs passage input output uniq). Qed.
