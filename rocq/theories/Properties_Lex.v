(** * Reading names, numbers, comments, quotes, macros and line ends

    Statements only; each proof is one lemma of the facts files. *)
From Coq Require Import List NArith ZArith.
From Verif Require Import PyStr Ast Lex Parse LexSpec LexFacts LexFacts2 NumFacts LexCases.
Import ListNotations.
Open Scope N_scope.

(** ** C04: names and white space are read by longest match *)
Theorem C04_name_longest_match : forall name rest f p,
  identifier name -> stops_at name_char rest ->
  ps_atom (Src (name ++ rest) f p)
  = (Src rest f (p + Z.of_nat (length name)), Some (Src name f p)).
Proof. exact ps_atom_ident. Qed.
Print Assumptions C04_name_longest_match.

Theorem C04_name_only_at_letter : forall s,
  stops_at letter (s_txt s) -> ps_atom s = (s, None).
Proof. exact ps_atom_none. Qed.
Print Assumptions C04_name_only_at_letter.

Theorem C04_spacing_longest_match : forall a rest f p,
  Forall blank a -> stops_at blank rest ->
  ps_space (Src (a ++ rest) f p)
  = (Src rest f (p + Z.of_nat (length a)), match a with [] => None | _ => Some (Src a f p) end).
Proof. exact space_run_spec. Qed.
Print Assumptions C04_spacing_longest_match.

Theorem C04_gap_longest_match : forall a rest f p,
  Forall white a -> stops_at white rest ->
  ps_gap (Src (a ++ rest) f p)
  = (Src rest f (p + Z.of_nat (length a)), match a with [] => None | _ => Some (Src a f p) end).
Proof. exact gap_run_spec. Qed.
Print Assumptions C04_gap_longest_match.

Example C04_case :
  identifier (lit "long-name_2") /\ stops_at name_char (lit ")x") /\
  ps_atom (Src (lit "long-name_2)x") None 7)
  = (Src (lit ")x") None 18, Some (Src (lit "long-name_2") None 7)).
Proof. exact atom_case. Qed.

(** ** C05: integer literals denote their value *)
Theorem C05_integer_value : forall sign effect body v suffix rest f p,
  sign_of sign effect -> int_literal body v -> long_suffix suffix -> number_ends rest ->
  ps_number (Src (sign ++ body ++ suffix ++ rest) f p)
  = Ok (Src rest f (p + Z.of_nat (length (sign ++ body ++ suffix))), Some (NInt (effect v))).
Proof. exact number_int. Qed.
Print Assumptions C05_integer_value.

Theorem C05_printed_integer_reads_back : forall z rest f p,
  number_ends rest ->
  ps_number (Src (Z_text z ++ rest) f p)
  = Ok (Src rest f (p + Z.of_nat (length (Z_text z))), Some (NInt z)).
Proof. exact Z_text_reads. Qed.
Print Assumptions C05_printed_integer_reads_back.

(** Not every text the number pattern accepts has a value: C octal, a sign
    detached from its digits and a double L raise ValueError. *)
Theorem C05_all_accepted_literals_refuted : forall s,
  In s [lit "0755"; lit "- 5"; lit "0xFFLL"] ->
  re_INT s = Some (length s) /\
  exists msg, ps_number (Src s None 0) = Err (Exn ValueError msg).
Proof. exact number_bad. Qed.
Print Assumptions C05_all_accepted_literals_refuted.

Example C05_case :
  sign_of (lit "-") Z.opp /\ int_literal (lit "0x1Fe") 510 /\ long_suffix (lit "L") /\ number_ends (lit ") 9") /\
  ps_number (Src (lit "-0x1FeL) 9") None 3) = Ok (Src (lit ") 9") None 10, Some (NInt (-510)%Z)).
Proof. exact number_case. Qed.

(** ** C06: a comment is consumed up to its own parenthesis *)
Theorem C06_comment_extent : forall body rest f p,
  Forall permitted body -> balanced body ->
  ps_comment (Src (lit "($!" ++ body ++ 41 :: rest) f p)
  = Ok (Src rest f (p + Z.of_nat (3 + length body + 1)), Some NComment).
Proof. exact comment_ok. Qed.
Print Assumptions C06_comment_extent.

Example C06_case :
  Forall permitted (lit " ($set a (b)) ' ") /\ balanced (lit " ($set a (b)) ' ") /\
  ps_comment (Src (lit "($! ($set a (b)) ' )end)") None 0) = Ok (Src (lit "end)") None 20, Some NComment).
Proof. exact comment_case. Qed.

(** ** C07: quoted text is verbatim *)
Theorem C07_quote_verbatim : forall python mark body rest f p,
  mark = lit "(`" \/ mark = lit "($quote" ->
  Forall permitted body -> balanced body ->
  exists s, ps_quote python (Src (mark ++ body ++ 41 :: rest) f p)
    = Ok (Src rest f (p + Z.of_nat (length mark + length body + 1)), Some (NStr s))
    /\ s_txt s = body
    /\ (body <> [] -> s = Src body f (p + Z.of_nat (length mark))).
Proof. exact quote_ok. Qed.
Print Assumptions C07_quote_verbatim.

Example C07_case :
  Forall permitted (lit " ($x) () ") /\ balanced (lit " ($x) () ") /\
  ps_quote false (Src (lit "(` ($x) () )+") None 0)
  = Ok (Src (lit "+") None 12, Some (NStr (Src (lit " ($x) () ") None 2))).
Proof. exact quote_case. Qed.

(** ** C08: macro definitions *)
Theorem C08_macro_definition : forall g0 name g1 g2 ps body rest f p,
  Forall white g0 -> identifier name -> Forall white g1 -> Forall white g2 -> params_ok ps ->
  Forall permitted body -> balanced body ->
  let whole := lit "($macro" ++ g0 ++ name ++ g1 ++ 40 :: g2 ++ param_text ps ++ 41 :: body ++ [41] in
  exists nm l, ps_macro (Src (whole ++ rest) f p)
    = Ok (Src rest f (p + Z.of_nat (length whole)), Some (NMacro nm l body))
    /\ s_txt nm = name /\ map s_txt l = map fst ps.
Proof. exact macro_ok. Qed.
Print Assumptions C08_macro_definition.

Example C08_case :
  let ps := [(lit "a", lit " "); (lit "b", [])] in
  params_ok ps /\ identifier (lit "m") /\ balanced (lit " ($a)+(($b)) ") /\
  ps_macro (Src (lit "($macro m (a b) ($a)+(($b)) )!") None 0)
  = Ok (Src (lit "!") None 29,
        Some (NMacro (Src (lit "m") None 8) [Src (lit "a") None 11; Src (lit "b") None 13]
                     (lit " ($a)+(($b)) "))).
Proof. exact macro_case. Qed.

(** ** C09: comments of the target language *)
Theorem C09_line_comment : forall body rest f p,
  Forall (fun c => ~ line_end c) body -> rest = [] \/ (exists c r, rest = c :: r /\ line_end c) ->
  ps_remark_c (Src (lit "//" ++ body ++ rest) f p)
  = Ok (Src rest f (p + Z.of_nat (2 + length body)), Some (NRemark (Src (lit "//" ++ body) f p))).
Proof. exact remark_line. Qed.
Print Assumptions C09_line_comment.

Theorem C09_block_comment : forall body rest f p,
  ~ occurs (lit "*/") (body ++ lit "*") ->
  ps_remark_c (Src (lit "/*" ++ body ++ lit "*/" ++ rest) f p)
  = Ok (Src rest f (p + Z.of_nat (2 + length body + 2)),
        Some (NRemark (Src (lit "/*" ++ body ++ lit "*/") f p))).
Proof. exact remark_block. Qed.
Print Assumptions C09_block_comment.

Theorem C09_unclosed_comment : forall body f p,
  ~ occurs (lit "*/") body ->
  ps_remark_c (Src (lit "/*" ++ body) f p) = Err (Exn SyntaxError "ps_remark_c: unclosed comment").
Proof. exact remark_unclosed. Qed.
Print Assumptions C09_unclosed_comment.

Theorem C09_python_comment : forall body rest f p,
  Forall (fun c => ~ line_end c) body -> rest = [] \/ (exists c r, rest = c :: r /\ line_end c) ->
  ps_remark_python (Src (35 :: body ++ rest) f p)
  = (Src rest f (p + Z.of_nat (1 + length body)), Some (Src (35 :: body) f p)).
Proof. exact remark_python. Qed.
Print Assumptions C09_python_comment.

Example C09_case :
  ~ occurs (lit "*/") (lit " ($set x 1) " ++ lit "*") /\
  ps_remark_c (Src (lit "/* ($set x 1) */*/") None 0)
  = Ok (Src (lit "*/") None 16, Some (NRemark (Src (lit "/* ($set x 1) */") None 0))).
Proof. exact remark_case. Qed.

(** ** C11: line ends *)
Theorem C11_line_ends_unified : forall s, unified s (unify_eol s).
Proof. exact unify_eol_unified. Qed.
Print Assumptions C11_line_ends_unified.
Theorem C11_no_carriage_return : forall s, ~ In 13 (unify_eol s).
Proof. exact unify_no_cr. Qed.
Print Assumptions C11_no_carriage_return.
Theorem C11_line_count : forall s, line_ends (unify_eol s) = line_ends s.
Proof. exact unify_lines. Qed.
Print Assumptions C11_line_count.
Theorem C11_unchanged_without_cr : forall s, ~ In 13 s -> unify_eol s = s.
Proof. exact unify_id. Qed.
Print Assumptions C11_unchanged_without_cr.
Theorem C11_idempotent : forall s, unify_eol (unify_eol s) = unify_eol s.
Proof. exact unify_idem. Qed.
Print Assumptions C11_idempotent.
Example C11_case : unify_eol [97; 13; 10; 13; 13; 10; 98; 10; 13] = [97; 10; 10; 10; 98; 10; 10].
Proof. exact (eq_refl _). Qed.
