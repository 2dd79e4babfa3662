(** * Importing by name: at most once; cycles of quoted imports *)
From Coq Require Import List NArith ZArith Bool Lia ZifyBool ZifyNat ZifyN.
From Verif Require Import PyStr PyStrFacts Ast Lex LexSpec LexFacts Parse ParseSpec ParseFacts ParseFacts2 ParseFacts3 ParseFacts4 EnvSpec EnvFacts CodecFacts.
Import ListNotations.
Open Scope N_scope.
Open Scope monad_scope.

Lemma white_not_name c : white c -> ~ name_char c.
Proof. unfold white, blank, line_end, name_char, letter, decimal_digit. lia. Qed.
Lemma letter_not_white c : letter c -> ~ white c.
Proof. unfold white, blank, line_end, letter. lia. Qed.
Section Once.
Variable cx : pctx.
Variable imp : text -> M (list node).
Variable k : self.
Lemma ps_import_read g name g' rest f p s : identifier name -> Forall white g -> Forall white g' ->
  ps_import cx imp k (Src (import_text g name g' ++ rest) f p) s =
  (let* key := import_source cx (library name) true in
   let* ast := imp key in
   ret (Src rest f (p + Z.of_nat (length (import_text g name g'))), Some (enclose_import ast))) s.
Proof.
  intros In Wg Wg'. unfold ps_import.
  assert (E : Src (import_text g name g' ++ rest) f p = Src (lit "($import" ++ g ++ name ++ g' ++ 41 :: rest) f p).
  { f_equal. unfold import_text. rewrite <- !app_assoc. reflexivity. }
  rewrite E. change (sstarts ps_IMPORT _) with true. cbn [negb].
  change (sfrom 8 _) with (Src (g ++ name ++ g' ++ 41 :: rest) f (p + Z.of_nat 8)).
  assert (S1 : stops_at white (name ++ g' ++ 41 :: rest)).
  { destruct name as [|c n]; [destruct In|]. cbn. apply letter_not_white, In. }
  assert (W41 : ~ white 41) by (unfold white, blank, line_end; lia).
  rewrite gap_run by assumption.
  rewrite ps_atom_ident; [|exact In|].
  2:{ destruct g' as [|c r]; cbn; [unfold name_char, letter, decimal_digit; lia|]. inversion Wg'; subst. apply white_not_name. assumption. }
  cbn [s_txt]. unfold bind at 1 2 3. change (lit ".yu") with (lit ".yu"). fold (library name). unfold bind.
  destruct (import_source cx (library name) true s) as [[key s1]|e|]; [|reflexivity|reflexivity].
  destruct (imp key s1) as [[ast s2]|e|]; [|reflexivity|reflexivity].
  unfold ret. cbv beta iota. rewrite gap_run; [|exact Wg'|exact W41].
  unfold skip_tag. change (sstarts ps_IMPORT_T _) with false. cbv beta iota.
  change (sis ch_close _) with true. cbv beta iota. unfold sfrom. cbn [s_txt s_file s_pos skipn].
  do 3 f_equal. f_equal. unfold import_text. rewrite !app_length. cbn. lia.
Qed.
Lemma text_item_import g name g' rest f p s : identifier name -> Forall white g -> Forall white g' ->
  text_item cx imp k (Src (import_text g name g' ++ rest) f p) s =
  (let* key := import_source cx (library name) true in
   let* ast := imp key in
   ret (Src rest f (p + Z.of_nat (length (import_text g name g'))), Some (enclose_import ast))) s.
Proof.
  intros In Wg Wg'. pose proof (ps_import_read g name g' rest f p s In Wg Wg') as E. unfold text_item.
  unfold bind, ret in *.
  change (ps_set k (Src (import_text g name g' ++ rest) f p) s) with (Ok (Src (import_text g name g' ++ rest) f p, @None node, s)). cbv beta iota.
  change (ps_let k (Src (import_text g name g' ++ rest) f p) s) with (Ok (Src (import_text g name g' ++ rest) f p, @None node, s)). cbv beta iota.
  rewrite E.
  destruct (import_source cx (library name) true s) as [[key s1]|e|]; [|reflexivity|reflexivity].
  destruct (imp key s1) as [[ast s2]|e|]; reflexivity.
Qed.
End Once.

(** A library known already contributes nothing and changes nothing. *)
Lemma import_again cx n k g name g' rest f p s d : identifier name -> Forall white g -> Forall white g' ->
  dict_get source_empty (y_source s) = Some (d, []) -> dict_mem (library name) (y_source s) = true ->
  text_item cx (yuparse cx (S n)) k (Src (import_text g name g' ++ rest) f p) s =
  Ok (Src rest f (p + Z.of_nat (length (import_text g name g'))), Some [], s).
Proof.
  intros In Wg Wg' D M. rewrite text_item_import by assumption. unfold bind, ret. rewrite import_known by exact M.
  cbn [yuparse]. unfold yuparse_with, bind, get_st, ret. rewrite D. reflexivity.
Qed.
(** A library not yet known is read, registered and parsed in place. *)
Lemma import_first cx n k g name g' rest f p s c : identifier name -> Forall white g -> Forall white g' ->
  dict_mem (library name) (y_source s) = false -> c_read cx (lib_path cx (library name)) = Some c ->
  text_item cx (yuparse cx n) k (Src (import_text g name g' ++ rest) f p) s =
  match yuparse cx n (library name) (set_source (dict_set (library name) (DPath (lib_path cx (library name)), unify_eol c) (y_source s)) s) with
  | Ok (l, s') => Ok (Src rest f (p + Z.of_nat (length (import_text g name g'))), Some (enclose_import l), s')
  | Err e => Err e
  | Fuel => Fuel
  end.
Proof.
  intros In Wg Wg' M R. rewrite text_item_import by assumption. unfold bind, ret. rewrite import_new by (right; exact M).
  rewrite R. cbv beta iota. destruct (yuparse cx n (library name) _) as [[l s']|e|]; reflexivity.
Qed.
(** After an import by name the library is known, and a parse never forgets. *)
Lemma import_then_known cx n k g name g' rest f p s r s' : identifier name -> Forall white g -> Forall white g' ->
  text_item cx (yuparse cx n) k (Src (import_text g name g' ++ rest) f p) s = Ok (r, s') ->
  dict_mem (library name) (y_source s') = true.
Proof.
  intros In Wg Wg'. rewrite text_item_import by assumption. unfold bind, ret.
  destruct (dict_mem (library name) (y_source s)) eqn:M.
  - rewrite import_known by exact M. destruct (yuparse cx n source_empty s) as [[l s1]|e|] eqn:Y; [|discriminate|discriminate].
    cbv beta iota. intros [= _ <-]. apply (parse_keeps _ _ _ _ _ _ Y), M.
  - rewrite import_new by (right; exact M). destruct (c_read cx (lib_path cx (library name))) as [c|]; [|discriminate].
    set (s1 := set_source _ _). destruct (yuparse cx n (library name) s1) as [[l s2]|e|] eqn:Y; [|discriminate|discriminate].
    cbv beta iota. intros [= _ <-]. apply (parse_keeps _ _ _ _ _ _ Y). unfold s1. cbn [y_source set_source].
    rewrite dict_mem_set', teqb_refl. reflexivity.
Qed.
