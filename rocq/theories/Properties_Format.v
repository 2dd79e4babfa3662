(** * Format strings, macros and list functions: C23, C24, C26 *)
From Coq Require Import List NArith ZArith Bool String.
From Verif Require Import PyStr Ast Lex Parse Final Eval Builtin EnvSpec EvalSpec EvalCases FormatSpec BuiltinSpec FormatFacts FormatFacts2 FormatCases.
Import ListNotations.
Open Scope list_scope.

(** ** C23: every place of a format string is replaced by its argument.  The template and the
    arguments have no text that could start another place ([readable], [loose]). *)
Theorem C23_format_string_partial ec parse fn args named file pos e s v items e1 s1 vs us e2 s2 nm nu e3 s3 out :
  evals ec parse fn e s v e1 s1 -> str_of v = Some (written items) -> (forall a, v <> NAtom a) -> readable items ->
  evals ec parse (NList args) e1 s1 (NList vs) e2 s2 -> Forall2 shows vs us -> Forall loose us ->
  named_evals ec parse named e2 s2 nm e3 s3 -> Forall2 shows_named nm nu ->
  Forall (fun b => ~ In 41%N (fst b) /\ loose (snd b)) nu -> vs <> [] \/ named <> [] ->
  substituted (numbered 0 us ++ nu) items out ->
  evals ec parse (NApply fn args named file pos) e s (NStr (raw out)) e3 s3.
Proof. exact (format_string ec parse fn args named file pos e s v items e1 s1 vs us e2 s2 nm nu e3 s3 out). Qed.
Print Assumptions C23_format_string_partial.
Example C23_case :
  written fmt_items = lit "int ($name) = ($0) + ($1); ($other)" /\ readable fmt_items /\
  (Forall2 shows [NStr (raw (lit "f(a)")); NInt 2] [lit "f(a)"; lit "2"] /\ Forall loose [lit "f(a)"; lit "2"; lit "x"]) /\
  substituted (numbered 0 [lit "f(a)"; lit "2"] ++ [(lit "name", lit "x")]) fmt_items (lit "int x = f(a) + 2; ($other)") /\
  evals ec0 noparse (NApply (NStr (raw (written fmt_items))) [NStr (raw (lit "f(a)")); NInt 2] [(raw (lit "name"), NStr (raw (lit "x")))] None 0) [] st0
    (NStr (raw (lit "int x = f(a) + 2; ($other)"))) [] st0.
Proof. exact (conj fmt_written (conj fmt_readable (conj fmt_args (conj fmt_out fmt_case)))). Qed.
(** for every template and table there is such a text *)
Theorem C23_every_template tab items : exists out, substituted tab items out.
Proof. exact (subst_exists tab items). Qed.
Print Assumptions C23_every_template.

(** In general the arguments replace their places one after the other: those of the first in the
    template, those of the next in the text so far. *)
Theorem C23_one_after_the_other ec parse fn args named file pos e s v body e1 s1 vs us e2 s2 nm nu e3 s3 out :
  evals ec parse fn e s v e1 s1 -> str_of v = Some body -> (forall a, v <> NAtom a) ->
  evals ec parse (NList args) e1 s1 (NList vs) e2 s2 -> Forall2 shows vs us ->
  named_evals ec parse named e2 s2 nm e3 s3 -> Forall2 shows_named nm nu -> vs <> [] \/ named <> [] ->
  replaced_in_turn (numbered 0 us ++ nu) body out ->
  evals ec parse (NApply fn args named file pos) e s (NStr (raw out)) e3 s3.
Proof. exact (format_turns ec parse fn args named file pos e s v body e1 s1 vs us e2 s2 nm nu e3 s3 out). Qed.
Print Assumptions C23_one_after_the_other.
Theorem C23_every_table tab body : exists out, replaced_in_turn tab body out.
Proof. exact (turn_exists tab body). Qed.
Print Assumptions C23_every_table.
Example C23_turns_case : replaced_in_turn (numbered 0 [lit "($1)"; lit "x"]) (lit "($set a ($0))($(($1)))") (lit "($set a x)($(x))") /\
  replaced_in_turn (combine [lit "a"; lit "b"] [lit "($b)"; lit "x"]) (written mac_items) (lit "x * (x + x)").
Proof. exact turns_case. Qed.

(** An argument that looks like a place is substituted again. *)
Theorem C23_substituted_once_refuted : ~ (forall ec parse fn args file pos e s v items e1 s1 vs us e2 s2 out,
  evals ec parse fn e s v e1 s1 -> str_of v = Some (written items) -> (forall a, v <> NAtom a) -> readable items ->
  evals ec parse (NList args) e1 s1 (NList vs) e2 s2 -> Forall2 shows vs us -> vs <> [] ->
  substituted (numbered 0 us) items out ->
  evals ec parse (NApply fn args [] file pos) e s (NStr (raw out)) e2 s2).
Proof. exact fmt_refuted. Qed.
Print Assumptions C23_substituted_once_refuted.

(** ** C24: a macro call evaluates the body with the texts of the arguments in the places of the
    parameters *)
Theorem C24_macro_definition ec parse name pars body e s : NoDup (map s_txt pars) ->
  evals ec parse (NMacro name pars body) e s
    (NEnv [(s_txt name, NMClosure body (map (fun p => (p, NBound)) (map s_txt pars)) (Some name) None)]) e s.
Proof. exact (macro_defined ec parse name pars body e s). Qed.
Print Assumptions C24_macro_definition.
Example C24_definition_case : evals ec0 echo (NMacro (raw (lit "m")) [raw (lit "a"); raw (lit "b")] (written mac_items)) [] st0 (NEnv [(lit "m", mac_closure)]) [] st0.
Proof. exact mac_defined. Qed.

Theorem C24_macro_expansion_partial ec parse fn args file pos e s items ps d c0 e1 s1 vs us e2 s2 out :
  evals ec parse fn e s (NMClosure (written items) (map (fun p => (p, NBound)) ps) d c0) e1 s1 ->
  evals ec parse (NList args) e1 s1 (NList vs) e2 s2 -> Forall2 inserts vs us -> List.length vs = List.length ps ->
  NoDup ps -> ~ In (lit "__va_args__") ps -> readable items -> Forall (fun p => ~ In 41%N p) ps -> Forall loose us ->
  substituted (combine ps us) items out ->
  exists call, forall r, finishes ec parse (NApply fn args [] file pos) e s r <-> finishes ec parse (NEval (NRaw out) d call) e2 s2 r.
Proof. exact (macro_expands ec parse fn args file pos e s items ps d c0 e1 s1 vs us e2 s2 out). Qed.
Print Assumptions C24_macro_expansion_partial.
Example C24_case :
  evals ec0 echo (var "m") [[(lit "m", mac_closure)]] st0 mac_closure [[(lit "m", mac_closure)]] st0 /\ readable mac_items /\
  (Forall2 inserts [NInt 2; NAtom (raw (lit "x"))] [lit "2"; lit "x"] /\ Forall loose [lit "2"; lit "x"]) /\
  substituted (combine [lit "a"; lit "b"] [lit "2"; lit "x"]) mac_items (lit "2 * (x + 2)") /\
  exists e' s', evals ec0 echo (call (var "m") [NInt 2; NAtom (raw (lit "x"))]) [[(lit "m", mac_closure)]] st0
    (NPlain (raw (lit "2 * (x + 2)")) IndNone false) e' s'.
Proof. exact (conj mac_fn (conj mac_readable (conj mac_args (conj mac_out mac_case)))). Qed.

(** In general, for every body and every arguments, the parameters are replaced one after the other. *)
Theorem C24_one_after_the_other ec parse fn args file pos e s body ps d c0 e1 s1 vs us e2 s2 out :
  evals ec parse fn e s (NMClosure body (map (fun p => (p, NBound)) ps) d c0) e1 s1 ->
  evals ec parse (NList args) e1 s1 (NList vs) e2 s2 -> Forall2 inserts vs us -> List.length vs = List.length ps ->
  NoDup ps -> ~ In (lit "__va_args__") ps -> replaced_in_turn (combine ps us) body out ->
  exists call, forall r, finishes ec parse (NApply fn args [] file pos) e s r <-> finishes ec parse (NEval (NRaw out) d call) e2 s2 r.
Proof. exact (macro_turns ec parse fn args file pos e s body ps d c0 e1 s1 vs us e2 s2 out). Qed.
Print Assumptions C24_one_after_the_other.
Example C24_turns_case : exists e' s', evals ec0 echo (call (var "m") [NStr (raw (lit "($b)")); NAtom (raw (lit "x"))]) [[(lit "m", mac_closure)]] st0
  (NPlain (raw (lit "x * (x + x)")) IndNone false) e' s'.
Proof. exact mac_again. Qed.

(** An argument that looks like a later parameter is replaced in turn. *)
Theorem C24_simultaneous_refuted : ~ (forall ec parse fn args file pos e s items ps d c0 e1 s1 vs us e2 s2 out,
  evals ec parse fn e s (NMClosure (written items) (map (fun p => (p, NBound)) ps) d c0) e1 s1 ->
  evals ec parse (NList args) e1 s1 (NList vs) e2 s2 -> Forall2 inserts vs us -> List.length vs = List.length ps ->
  NoDup ps -> ~ In (lit "__va_args__") ps -> readable items -> Forall (fun p => ~ In 41%N p) ps ->
  substituted (combine ps us) items out ->
  exists call, forall r, finishes ec parse (NApply fn args [] file pos) e s r <-> finishes ec parse (NEval (NRaw out) d call) e2 s2 r).
Proof. exact mac_refuted. Qed.
Print Assumptions C24_simultaneous_refuted.

(** ** C26: the list functions *)
Theorem C26_car_cdr ec parse e e2 s s2 file pos a args l :
  (s_txt a = lit "car" \/ s_txt a = lit "cdr") -> standard ec e (s_txt a) ->
  evals ec parse (NList args) e s (NList [NList l]) e2 s2 -> is_term (NList l) = true ->
  exists c d, l = c ++ d /\ (l = [] \/ List.length c = 1%nat) /\
    evals ec parse (NApply (NVar (RList []) a) args [] file pos) e s (NList (if teqb (s_txt a) (lit "car") then c else d)) e2 s2.
Proof. exact (call_car_cdr ec parse e e2 s s2 file pos a args l). Qed.
Print Assumptions C26_car_cdr.
Theorem C26_reversed ec parse e e2 s s2 file pos a args l :
  s_txt a = lit "reversed" -> standard ec e (s_txt a) ->
  evals ec parse (NList args) e s (NList [NList l]) e2 s2 -> is_term (NList l) = true ->
  exists w, List.length w = List.length l /\ (forall i, (i < List.length l)%nat -> nth_error w i = nth_error l (List.length l - 1 - i)) /\
    evals ec parse (NApply (NVar (RList []) a) args [] file pos) e s (NList w) e2 s2.
Proof. exact (call_reversed ec parse e e2 s s2 file pos a args l). Qed.
Print Assumptions C26_reversed.
Theorem C26_len ec parse e e2 s s2 file pos a args l :
  s_txt a = lit "len" -> standard ec e (s_txt a) ->
  evals ec parse (NList args) e s (NList [NList l]) e2 s2 -> is_term (NList l) = true ->
  evals ec parse (NApply (NVar (RList []) a) args [] file pos) e s (NInt (Z.of_nat (List.length l))) e2 s2.
Proof. exact (call_len ec parse e e2 s s2 file pos a args l). Qed.
Print Assumptions C26_len.
Theorem C26_index ec parse e e2 s s2 file pos a args l v :
  s_txt a = lit "index" -> standard ec e (s_txt a) ->
  evals ec parse (NList args) e s (NList [NList l; v]) e2 s2 -> is_term (NList [NList l; v]) = true ->
  exists i, first_at l v i /\ evals ec parse (NApply (NVar (RList []) a) args [] file pos) e s (NInt i) e2 s2.
Proof. exact (call_index ec parse e e2 s s2 file pos a args l v). Qed.
Print Assumptions C26_index.
Theorem C26_rindex ec parse e e2 s s2 file pos a args l v :
  s_txt a = lit "rindex" -> standard ec e (s_txt a) ->
  evals ec parse (NList args) e s (NList [NList l; v]) e2 s2 -> is_term (NList [NList l; v]) = true ->
  exists i, last_at l v i /\ evals ec parse (NApply (NVar (RList []) a) args [] file pos) e s (NInt i) e2 s2.
Proof. exact (call_rindex ec parse e e2 s s2 file pos a args l v). Qed.
Print Assumptions C26_rindex.
Theorem C26_range ec parse e e2 s s2 file pos a args x y d :
  s_txt a = lit "range" -> standard ec e (s_txt a) ->
  evals ec parse (NList args) e s (NList [NInt x; NInt y; NInt d]) e2 s2 -> d <> 0%Z ->
  (0 < d -> x <= y)%Z -> (d < 0 -> x >= y)%Z ->
  exists w, counts x y d w /\ evals ec parse (NApply (NVar (RList []) a) args [] file pos) e s (NList w) e2 s2.
Proof. exact (call_range ec parse e e2 s s2 file pos a args x y d). Qed.
Print Assumptions C26_range.
(** [unique] keeps the first occurrences, but of all elements the process has ever seen *)
Theorem C26_unique_partial ec parse e e2 s s2 file pos a args l :
  s_txt a = lit "unique" -> standard ec e (s_txt a) ->
  evals ec parse (NList args) e s (NList [NList l]) e2 s2 -> is_term (NList l) = true -> Forall simple l ->
  exists w, first_occurrences (y_unique s2) l w /\
    evals ec parse (NApply (NVar (RList []) a) args [] file pos) e s (NList w) e2 (set_unique (y_unique s2 ++ w) s2).
Proof. exact (call_unique ec parse e e2 s s2 file pos a args l). Qed.
Print Assumptions C26_unique_partial.
Example C26_case :
  (standard ec0 [] (lit "index") /\ standard ec0 [] (lit "unique") /\ standard ec0 [] (lit "car")) /\
  (evals ec0 noparse (call (var "index") [NList [NInt 5; NStr (raw (lit "x")); NInt 5]; NInt 5]) [] st0 (NInt 0) [] st0 /\
   evals ec0 noparse (call (var "rindex") [NList [NInt 5; NStr (raw (lit "x")); NInt 5]; NInt 5]) [] st0 (NInt 2) [] st0 /\
   evals ec0 noparse (call (var "index") [NList [NInt 5; NStr (raw (lit "x")); NInt 5]; NInt 6]) [] st0 (NInt (-1)) [] st0) /\
  (evals ec0 noparse (call (var "car") [NList [NInt 5; NInt 6; NInt 7]]) [] st0 (NList [NInt 5]) [] st0 /\
   evals ec0 noparse (call (var "cdr") [NList [NInt 5; NInt 6; NInt 7]]) [] st0 (NList [NInt 6; NInt 7]) [] st0 /\
   evals ec0 noparse (call (var "reversed") [NList [NInt 5; NInt 6; NInt 7]]) [] st0 (NList [NInt 7; NInt 6; NInt 5]) [] st0 /\
   evals ec0 noparse (call (var "range") [NInt 5; NInt 0; NInt (-2)]) [] st0 (NList [NInt 5; NInt 3; NInt 1]) [] st0).
Proof. exact (conj is_standard (conj index_case split_case)). Qed.
Example C26_unique_case : exists s', evals ec0 noparse (call (var "unique") [NList [NInt 1; NInt 2; NInt 1]]) [] st0 (NList [NInt 1; NInt 2]) [] s' /\
  evals ec0 noparse (call (var "unique") [NList [NInt 2; NInt 3; NInt 3]]) [] s' (NList [NInt 3]) [] (set_unique [NInt 1; NInt 2; NInt 3] st0).
Proof. exact unique_first_call. Qed.
Theorem C26_unique_refuted : ~ (forall ec parse e s e2 s2 file pos a args l, s_txt a = lit "unique" -> standard ec e (s_txt a) ->
  evals ec parse (NList args) e s (NList [NList l]) e2 s2 -> is_term (NList l) = true -> Forall simple l ->
  exists w s3, first_occurrences [] l w /\ evals ec parse (NApply (NVar (RList []) a) args [] file pos) e s (NList w) e2 s3).
Proof. exact unique_refuted. Qed.
Print Assumptions C26_unique_refuted.
