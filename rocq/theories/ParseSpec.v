(** * Vocabulary for the statements about the parser *)
From Coq Require Import List NArith ZArith Bool.
From Verif Require Import PyStr Ast LexSpec Parse.
Import ListNotations.
Open Scope N_scope.

(** Located pieces of text that occur in a tree.  One clause for each place of a
    tree where a piece of source is kept. *)
Inductive fragment : node -> source -> Prop :=
| fr_atom s : fragment (NAtom s) s
| fr_remark s : fragment (NRemark s) s
| fr_str s : fragment (NStr s) s
| fr_plain s i b : fragment (NPlain s i b) s
| fr_source s : fragment (NSource s) s
| fr_var r a : fragment (NVar r a) a
| fr_var_region l a s : In s l -> fragment (NVar (RList l) a) s
| fr_set_name a x : fragment (NSet (LAtom a) x) a
| fr_set_names l x s : In s l -> fragment (NSet (LList l) x) s
| fr_let_name a x y : fragment (NLet (LAtom a) x y) a
| fr_let_names l x y s : In s l -> fragment (NLet (LList l) x y) s
| fr_macro n ps b : fragment (NMacro n ps b) n
| fr_macro_par n ps b s : In s ps -> fragment (NMacro n ps b) s
| fr_emit r a x : fragment (NEmit r a x) a
| fr_emit_region l a x s : In s l -> fragment (NEmit (RList l) a x) s
| fr_lambda_par b f late a d : In (late, a, d) b -> fragment (NLambda b f) a
| fr_lambda_late b f late a d s : In (late, a, d) b -> In s late -> fragment (NLambda b f) s
| fr_lambdav r a f : fragment (NLambdaV r a f) a
| fr_lambdav_region l a f s : In s l -> fragment (NLambdaV (RList l) a f) s
| fr_apply_name fn args named file pos n x : In (n, x) named -> fragment (NApply fn args named file pos) n
| fr_inside x y s : child x y -> fragment y s -> fragment x s
(** the immediate subtrees *)
with child : node -> node -> Prop :=
| ch_list l y : In y l -> child (NList l) y
| ch_text l q p y : In y l -> child (NText l q p) y
| ch_apply_fn fn args named file pos : child (NApply fn args named file pos) fn
| ch_apply_arg fn args named file pos y : In y args -> child (NApply fn args named file pos) y
| ch_apply_named fn args named file pos n y : In (n, y) named -> child (NApply fn args named file pos) y
| ch_eval x d c : child (NEval x d c) x
| ch_infix x f p : child (NInfix x f p) x
| ch_embed x : child (NEmbed x) x
| ch_set l x : child (NSet l x) x
| ch_let1 l x y : child (NLet l x y) x
| ch_let2 l x y : child (NLet l x y) y
| ch_emit r a x : child (NEmit r a x) x
| ch_lambda_default b f late a d : In (late, a, d) b -> child (NLambda b f) d
| ch_lambda_body b f : child (NLambda b f) f
| ch_lambdav r a f : child (NLambdaV r a f) f
| ch_cond1 c x y : child (NCond c x y) c
| ch_cond2 c x y : child (NCond c x y) x
| ch_cond3 c x y : child (NCond c x y) y.

(** Locations kept without text: an application remembers where its dollar sign
    is, an infix expression where its dollar sign or brace is. *)
Inductive pin : node -> option text -> Z -> list char -> Prop :=
| pin_apply fn args named file pos : pin (NApply fn args named file pos) file pos [36]
| pin_infix x file pos : pin (NInfix x file pos) file pos [36; 123]
| pin_inside x y file pos cs : child x y -> pin y file pos cs -> pin x file pos cs.

Section Registry.
(** [registry name t]: the text [t] is known under [name] *)
Variable registry : text -> text -> Prop.
(** A piece of source that carries a location is the text found there. *)
Definition located (s : source) : Prop :=
  match s_file s with
  | None => True
  | Some f => (0 <= s_pos s)%Z /\
              exists t a b, registry f t /\ t = a ++ s_txt s ++ b /\ Z.of_nat (length a) = s_pos s
  end.
Definition pinned (file : option text) (pos : Z) (cs : list char) : Prop :=
  match file with
  | None => True
  | Some f => (0 <= pos)%Z /\
              exists t c, registry f t /\ nth_error t (Z.to_nat pos) = Some c /\ In c cs
  end.
Definition well_located (x : node) : Prop :=
  (forall s, fragment x s -> located s) /\ (forall f p cs, pin x f p cs -> pinned f p cs).
End Registry.

(** Every import in the text is written with a plain name: behind the opening of
    an import and white space there is a letter. *)
Definition imports_by_name (t : text) : Prop :=
  forall a g r, t = a ++ lit "($import" ++ g ++ r -> Forall white g -> stops_at white r ->
    exists c r', r = c :: r' /\ letter c.
Definition no_imports (t : text) : Prop := ~ occurs (lit "($import") t.

(** An import by name as it is written; [g] and [g'] are white space. *)
Definition import_text (g name g' : text) : text := lit "($import" ++ g ++ name ++ g' ++ [41].
(** The key under which a library imported by name is known *)
Definition library (name : text) : text := name ++ lit ".yu".

(** [t] is the text registered under the name [f] *)
Definition known (s : yst) (f t : text) : Prop := exists d, dict_get f (y_source s) = Some (d, t).
(** The texts registered under the names of library files are the texts of those
    files, and the numbers still to be given to evaluated imports are not taken. *)
Definition consistent (cx : pctx) (s : yst) : Prop :=
  (forall lib c t, c_read cx (lib_path cx lib) = Some c -> known s lib t -> t = unify_eol c) /\
  (forall n t, (length (y_inclusion s) <= n)%nat -> ~ known s (nat_text n) t).
(** No library file has a number as its name. *)
Definition no_numeral_files (cx : pctx) : Prop :=
  forall n, c_read cx (lib_path cx (nat_text n)) = None.

(** The tree of the text [sou] where it stands, without looking for a header *)
Definition text_tree (cx : pctx) (d : nat) (sou : source) : M (list node) :=
  bind (drive_text (knot cx (yuparse cx d) (S (length (s_txt sou)))) stop_eof sou) (fun r => ret (tg_ast (snd r))).
