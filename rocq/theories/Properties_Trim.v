(** * Indentation and browsing: C29, C30, C31 *)
From Coq Require Import List NArith ZArith Bool String.
From Verif Require Import PyStr Ast Lex Parse Final Eval Browse FinalSpec TrimSpec OffsetSpec BrowseSpec TrimFacts TrimFacts2 OffsetFacts5 TrimCases.
Import ListNotations.
Open Scope list_scope.
Open Scope N_scope.

(** ** C29: a substituted text follows the indentation of the application *)
Theorem C29_text_follows_the_indentation ind u w : follows ind u w -> trim true ind u = w.
Proof. exact (trim_follows ind u w). Qed.
Print Assumptions C29_text_follows_the_indentation.
Example C29_case : follows (lit "  ") margin_text (lit "a" ++ 10 :: lit "  " ++ 10 :: lit "    b" ++ 10 :: lit "  c").
Proof. exact margin_case. Qed.

(** every text whose only line breaks are line feeds has such a form *)
Theorem C29_every_text ind lines : lines <> [] -> Forall no_break lines ->
  exists w, follows ind (join [10] lines) w /\ trim true ind (join [10] lines) = w.
Proof. exact (every_text_follows ind lines). Qed.
Print Assumptions C29_every_text.
Example C29_every_text_case : [lit "a"; lit "b"] <> [] /\ Forall no_break [lit "a"; lit "b"].
Proof. exact lines_case. Qed.

(** with the option off the text stays as it is *)
Theorem C29_option_off ind u : trim false ind u = u.
Proof. exact (trim_off ind u). Qed.
Print Assumptions C29_option_off.

(** Other characters that Python takes for a line break (form feed, ...) count as one:
    the text after them is indented though it starts no line. *)
Theorem C29_other_breaks_refuted : ~ (forall ind l, ~ In 10 l -> ~ In 13 l -> ~ blank l -> (forall i, indented_by i l -> i = []) -> trim true ind l = l).
Proof. exact other_breaks. Qed.
Print Assumptions C29_other_breaks_refuted.

(** ** C30: browse information does not change the generated text *)
Theorem C30_indentation_partial ind lines b o : full_lines lines -> Forall no_break lines -> even_indentation lines ->
  r_txt (trim_with_browse true ind (Res (join [10] lines) b o)) = trim true ind (join [10] lines).
Proof. exact (browse_same_trim ind lines b o). Qed.
Print Assumptions C30_indentation_partial.
Example C30_indentation_case : full_lines [lit "    a"; lit "      b"; []] /\ even_indentation [lit "    a"; lit "      b"; []].
Proof. exact (conj full_case even_case). Qed.
Theorem C30_indentation_off ind r : r_txt (trim_with_browse false ind r) = trim false ind (r_txt r).
Proof. exact (browse_same_trim_off ind r). Qed.
Print Assumptions C30_indentation_off.

Theorem C30_reduction_partial ls b o : ls <> [] -> Forall tidy ls ->
  r_txt (reduce_emptiness_browse true (Res (unlines ls) b o)) = reduce_emptiness true (unlines ls).
Proof. exact (browse_same_reduce ls b o). Qed.
Print Assumptions C30_reduction_partial.
Example C30_reduction_case : Forall tidy [lit "a"; []; []; lit "b"].
Proof. exact tidy_case. Qed.

(** an empty line inside the text: the indentation is written on it only without browsing *)
Theorem C30_empty_line_refuted : ~ (forall ind u, r_txt (trim_with_browse true ind (res_of u)) = trim true ind u).
Proof. exact browse_blank_line. Qed.
Print Assumptions C30_empty_line_refuted.
(** tabs and spaces mixed: nothing is cut with browsing, the common part without *)
Theorem C30_mixed_indentation_refuted :
  ~ (forall ind l l', ~ blank l -> ~ blank l' -> no_break l -> no_break l' ->
       r_txt (trim_with_browse true ind (res_of (join [10] [l; l']))) = trim true ind (join [10] [l; l'])).
Proof. exact browse_mixed. Qed.
Print Assumptions C30_mixed_indentation_refuted.
(** spacing at the end of a line, a missing last line feed *)
Theorem C30_trailing_spacing_refuted : ~ (forall u, r_txt (reduce_emptiness_browse true (res_of u)) = reduce_emptiness true u).
Proof. exact browse_reduce. Qed.
Print Assumptions C30_trailing_spacing_refuted.

(** ** C31: the recorded offsets lead back to the origin *)
Theorem C31_offsets_lead_back r ps : built r ps ->
  r_browse r = origins 0 ps /\
  exists rel, aligns rel (raw_text ps) (r_txt r) /\
    forall a b, rel a b -> in_force (r_offset r) (Z.of_nat b) (Z.of_nat a - Z.of_nat b) /\
      (Z.of_nat b + delta_at (r_offset r) (Z.of_nat b))%Z = Z.of_nat a.
Proof. exact (offsets_lead_back r ps). Qed.
Print Assumptions C31_offsets_lead_back.
Example C31_case : built two_result two_pieces /\ r_txt two_result = lit "x = a" ++ 10 :: lit "    b".
Proof. exact (conj two_built two_text). Qed.

(** the text of an evaluated tree has such tables *)
Theorem C31_evaluated_tree ec x st r st' : browsable x -> plain_with_browse ec x st = Ok (r, st') ->
  exists ps rel, built r ps /\ r_browse r = origins 0 ps /\ aligns rel (raw_text ps) (r_txt r) /\
    forall a b, rel a b -> in_force (r_offset r) (Z.of_nat b) (Z.of_nat a - Z.of_nat b).
Proof. exact (plain_offsets_lead_back ec x st r st'). Qed.
Print Assumptions C31_evaluated_tree.
Example C31_evaluated_tree_case ec st : exists r st', plain_with_browse ec (NList [NResult (lit "x = ") [(0, 0%nat, 11)%Z] [];
    NTrim (NResult (lit "  a" ++ 10 :: lit "  b") [(0, 1%nat, 40)%Z] []) (lit "    ")]) st = Ok (r, st') /\
  browsable (NList [NResult (lit "x = ") [(0, 0%nat, 11)%Z] []; NTrim (NResult (lit "  a" ++ 10 :: lit "  b") [(0, 1%nat, 40)%Z] []) (lit "    ")]) /\
  r_txt r <> [].
Proof. exact (browsable_case ec st). Qed.

(** the editor jumps from a character to the character it comes from *)
Theorem C31_jump_reaches_the_origin r ps1 t f q ps2 : built r (ps1 ++ (t, [(0%Z, f, q)]) :: ps2) ->
  Forall proper ps1 -> Forall proper ps2 -> (0 < q)%Z -> origins 0 ps1 <> [] ->
  exists rel, aligns rel (raw_text (ps1 ++ (t, [(0%Z, f, q)]) :: ps2)) (r_txt r) /\
    forall k b, (k < List.length t)%nat -> rel (List.length (raw_text ps1) + k)%nat b ->
      jumps (r_browse r) (r_offset r) (Z.of_nat b) = [(f, (q + Z.of_nat k)%Z)].
Proof. exact (jump_from_output r ps1 t f q ps2). Qed.
Print Assumptions C31_jump_reaches_the_origin.
Example C31_jump_case : Forall proper two_pieces /\ jumps (r_browse two_result) (r_offset two_result) 10 = [(1%nat, 46%Z)].
Proof. exact (conj two_proper two_jump). Qed.

(** a piece with several origins (nested calls): the editor goes through all of them, in order *)
Theorem C31_jumps_through_all_origins r ps1 t ms ps2 : built r (ps1 ++ (t, map (fun m => (0%Z, fst m, snd m)) ms) :: ps2) ->
  Forall proper ps1 -> Forall proper ps2 -> (2 <= List.length ms)%nat ->
  exists rel, aligns rel (raw_text (ps1 ++ (t, map (fun m => (0%Z, fst m, snd m)) ms) :: ps2)) (r_txt r) /\
    forall k b, (k < List.length t)%nat -> rel (List.length (raw_text ps1) + k)%nat b ->
      jumps (r_browse r) (r_offset r) (Z.of_nat b) = map (fun m => (fst m, Z.abs (snd m))) ms.
Proof. exact (chain_from_output r ps1 t ms ps2). Qed.
Print Assumptions C31_jumps_through_all_origins.
Example C31_chain_case : exists r, built r [(lit "ab", [(0%Z, 0%nat, 3%Z)]); (lit "cd", map (fun m => (0%Z, fst m, snd m)) [(0%nat, 7%Z); (1%nat, (-40)%Z)])] /\
  jumps (r_browse r) (r_offset r) 3 = [(0%nat, 7%Z); (1%nat, 40%Z)].
Proof. exact chain_case. Qed.

(** but from the first piece that has an origin it always jumps to the start of it *)
Theorem C31_first_piece_refuted : ~ (forall r t f q ps2, built r ((t, [(0%Z, f, q)]) :: ps2) -> Forall proper ps2 -> (0 < q)%Z ->
  exists rel, aligns rel (raw_text ((t, [(0%Z, f, q)]) :: ps2)) (r_txt r) /\
    forall k b, (k < List.length t)%nat -> rel k b -> jumps (r_browse r) (r_offset r) (Z.of_nat b) = [(f, (q + Z.of_nat k)%Z)]).
Proof. exact first_piece_case. Qed.
Print Assumptions C31_first_piece_refuted.
