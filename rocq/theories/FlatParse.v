(** The parser does not look at what browse information adds to the state (proofs only). *)
From Coq Require Import List NArith ZArith Bool String.
From Verif Require Import PyStr Ast Lex Parse FlatSpec.
Import ListNotations.

Definition on_st {A} (r : res (A * yst)) : res (A * yst) :=
  match r with Ok (a, s) => Ok (a, flat_st s) | Err e => Err e | Fuel => Fuel end.
Definition natural {A} (m : M A) : Prop := forall s, m (flat_st s) = on_st (m s).

Lemma n_ret {A} (a : A) : natural (ret a).
Proof. intros s. reflexivity. Qed.
Lemma n_throw {A} e : natural (@throw A e).
Proof. intros s. reflexivity. Qed.
Lemma n_fuel {A} : natural (fun _ => @Fuel (A * yst)).
Proof. intros s. reflexivity. Qed.
Lemma n_lift {A} (r : res A) : natural (lift r).
Proof. intros s. destruct r; reflexivity. Qed.
Lemma n_bind {A B} (m : M A) (k : A -> M B) : natural m -> (forall a, natural (k a)) -> natural (bind m k).
Proof.
  intros Hm Hk s. unfold bind. rewrite Hm. destruct (m s) as [[a s']| |]; cbn [on_st]; [apply Hk| |]; reflexivity.
Qed.
Lemma n_get {A} (k : yst -> M A) : (forall s, k (flat_st s) = k s) -> (forall s, natural (k s)) -> natural (bind get_st k).
Proof. intros H Hk s. unfold bind, get_st. rewrite H. apply Hk. Qed.
Lemma n_modify f : (forall s, f (flat_st s) = flat_st (f s)) -> natural (modify f).
Proof. intros H s. unfold modify. rewrite H. reflexivity. Qed.

Section Rules.
Variables (cx : pctx) (imp : text -> M (list node)) (k : self).
Hypothesis Hi : forall key, natural (imp key).
Hypothesis Hf : forall sou, natural (k_form k sou).
Hypothesis Hn : forall g, natural (k_next k g).

Ltac step :=
  match goal with
  | |- natural (ret _) => apply n_ret
  | |- natural (throw _) => apply n_throw
  | |- natural (fail _) => apply n_throw
  | |- natural (lift _) => apply n_lift
  | |- natural (k_form k _) => apply Hf
  | |- natural (k_next k _) => apply Hn
  | |- natural (imp _) => apply Hi
  | |- natural (bind _ _) => apply n_bind; [|intros ?]
  | |- natural (match ?x with _ => _ end) => destruct x
  | |- natural (fun _ => Fuel) => apply n_fuel
  | |- _ => solve [auto]
  end.
Ltac nat_go := repeat step.

Lemma n_drive stop n : forall g, natural (drive n k stop g).
Proof. induction n as [|n IH]; intros g; cbn [drive]; nat_go. Qed.
Lemma n_drive_text stop sou : natural (drive_text k stop sou).
Proof. apply n_drive. Qed.
Hint Resolve n_drive_text : core.
Lemma n_code sou : natural (ps_code k sou).
Proof. unfold ps_code. cbv zeta. nat_go. Qed.
Hint Resolve n_code : core.
Lemma n_infix sou : natural (ps_infix k sou).
Proof. unfold ps_infix. nat_go. Qed.
Hint Resolve n_infix : core.
Lemma n_binding sou : natural (ps_binding k sou).
Proof. unfold ps_binding. cbv zeta. nat_go. Qed.
Hint Resolve n_binding : core.
Lemma n_set sou : natural (ps_set k sou).
Proof. unfold ps_set. cbv zeta. nat_go. Qed.
Lemma n_let sou : natural (ps_let k sou).
Proof. unfold ps_let. cbv zeta. nat_go. Qed.
Lemma n_emit sou : natural (ps_emit k sou).
Proof. unfold ps_emit. cbv zeta. nat_go. Qed.
Hint Resolve n_set n_let n_emit : core.
Lemma n_app_args fn n : forall args named sou, natural (app_args n k fn args named sou).
Proof. induction n as [|n IH]; intros args named sou; cbn [app_args]; cbv zeta; nat_go. Qed.
Hint Resolve n_app_args : core.
Lemma n_application sou : natural (ps_application k sou).
Proof. unfold ps_application. cbv zeta. nat_go. Qed.
Hint Resolve n_application : core.
Lemma n_list_items n : forall acc sou, natural (list_items n k acc sou).
Proof. induction n as [|n IH]; intros acc sou; cbn [list_items]; cbv zeta; nat_go. Qed.
Hint Resolve n_list_items : core.
Lemma n_list sou : natural (ps_list k sou).
Proof. unfold ps_list. nat_go. Qed.
Hint Resolve n_list : core.
Lemma n_l_form sou : natural (ps_l_form k sou).
Proof. unfold ps_l_form. nat_go. Qed.
Hint Resolve n_l_form : core.
Lemma n_lambda_bounds n : forall b late sou, natural (lambda_bounds n k b late sou).
Proof. induction n as [|n IH]; intros b late sou; cbn [lambda_bounds]; cbv zeta; nat_go. Qed.
Hint Resolve n_lambda_bounds : core.
Lemma n_lambda sou : natural (ps_lambda k sou).
Proof. unfold ps_lambda. cbv zeta. nat_go. Qed.
Hint Resolve n_lambda : core.
Lemma n_former sou : natural (ps_former cx k sou).
Proof. unfold ps_former. nat_go. Qed.
Hint Resolve n_former : core.
Lemma n_form sou : natural (ps_form cx k sou).
Proof. unfold ps_form. cbv zeta. nat_go. Qed.
Lemma n_import_source lib once : natural (import_source cx lib once).
Proof.
  unfold import_source. apply n_get; [reflexivity|]. intros st. cbv zeta. nat_go. apply n_modify. reflexivity.
Qed.
Lemma n_import_python p : natural (import_python cx p).
Proof. unfold import_python. apply n_get; [reflexivity|]. intros st. nat_go. apply n_modify. reflexivity. Qed.
Lemma n_import_eval ast f p : natural (import_eval cx ast f p).
Proof.
  unfold import_eval. cbv zeta. apply n_bind; [apply n_lift|]. intros sou. apply n_get; [reflexivity|]. intros st.
  nat_go. apply n_modify. reflexivity.
Qed.
Hint Resolve n_import_source n_import_python n_import_eval : core.
Lemma n_import sou : natural (ps_import cx imp k sou).
Proof. unfold ps_import. cbv zeta. nat_go. Qed.
Hint Resolve n_import : core.
Lemma n_item sou : natural (text_item cx imp k sou).
Proof. unfold text_item. cbv zeta. nat_go. Qed.
Hint Resolve n_item : core.
Lemma n_items n : forall ast sou, natural (text_items cx imp n k ast sou).
Proof. induction n as [|n IH]; intros ast sou; cbn [text_items]; nat_go. Qed.
Hint Resolve n_items : core.
Lemma n_next g : natural (text_next cx imp k g).
Proof. unfold text_next. nat_go. Qed.
End Rules.

Lemma n_knot cx imp : (forall key, natural (imp key)) -> forall n,
  (forall sou, natural (k_form (knot cx imp n) sou)) /\ (forall g, natural (k_next (knot cx imp n) g)).
Proof.
  intros Hi. induction n as [|n [IHf IHn]]; cbn [knot k_form k_next]; split; intros; try apply n_fuel;
    [apply n_form|apply n_next]; assumption.
Qed.
Lemma n_header sou : natural (ps_header_python sou).
Proof.
  unfold ps_header_python. destruct (ps_eol _) as [rest eol]. destruct (header_loop _ _ _) as [[[? ?] ?]|];
    [|apply n_ret]. apply n_bind; [apply n_modify; reflexivity|]. intros _. apply n_ret.
Qed.
Lemma n_yuparse cx d : forall key, natural (yuparse cx d key).
Proof.
  induction d as [|d IH]; intros key; cbn [yuparse]; [apply n_fuel|]. unfold yuparse_with.
  apply n_get; [reflexivity|]. intros st. destruct (dict_get key (y_source st)) as [[dc [|c src]]|];
    [apply n_ret| |apply n_throw]. cbv zeta. apply n_bind.
  - destruct (_ && _); [apply n_header|apply n_ret].
  - intros [sou h]. destruct (s_txt sou); [apply n_throw|]. apply n_bind; [|intros [? ?]; apply n_ret].
    apply n_drive_text; apply (n_knot cx (yuparse cx d) IH).
Qed.
