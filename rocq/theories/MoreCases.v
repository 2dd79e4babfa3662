(** Further text functions and names of a run (proofs only). *)
From Coq Require Import List NArith ZArith Bool String Lia ZifyBool ZifyNat ZifyN.
From Verif Require Import PyStr Ast Lex Parse Final Eval Builtin Builtin2 Shell Pp PyStrFacts LexSpec NumFacts EnvSpec EnvFacts EvalSpec EvalMono EvalKeep EvalPure EvalFacts EvalFacts2 EvalFacts3 EvalFacts4 EvalCases PpCases BuiltinSpec BuiltinFacts TextSpec TextFacts TextCases ShellSpec ShellFacts QuoteSpec QuoteFacts NameSpec NameFacts NameCases MoreSpec.
Import ListNotations.
Open Scope list_scope.

(** ** Splitting with a limit *)
Lemma split_max_drop p n a : forall k cur s, k = List.length a -> split_max p n k cur (a ++ s) = split_max p n O cur s.
Proof. induction a as [|c a IH]; intros k cur s ->; [reflexivity|]. cbn [List.length app split_max]. apply IH. reflexivity. Qed.
Lemma max_zero p cur t : split_max p 0 O cur t = [rev cur ++ t].
Proof. destruct t; cbn [split_max]; [rewrite app_nil_r|]; reflexivity. Qed.
Lemma max_first p n a b : p <> [] -> (forall i, occurs_at p (a ++ p ++ b) i -> (List.length a <= i)%nat) ->
  forall cur, split_max p (S n) O cur (a ++ p ++ b) = (rev cur ++ a) :: split_max p n O [] b.
Proof.
  intros Hp. induction a as [|c a IH]; intros H cur.
  - destruct p as [|c p]; [contradiction|]. assert (E : startswith (c :: p) (c :: p ++ b) = true) by (apply (startswith_app (c :: p))).
    cbn [app split_max]. rewrite E. cbn [List.length pred]. rewrite split_max_drop by reflexivity. rewrite app_nil_r. reflexivity.
  - assert (E : startswith p ((c :: a) ++ p ++ b) = false).
    { destruct (startswith p ((c :: a) ++ p ++ b)) eqn:E; [|reflexivity]. exfalso. assert (K : occurs_at p ((c :: a) ++ p ++ b) 0) by (apply occurs_skipn; split; [lia|exact E]).
      apply H in K. cbn [List.length] in K. lia. }
    cbn [app] in *. cbn [split_max]. rewrite E. rewrite IH.
    + cbn [rev]. rewrite <- app_assoc. reflexivity.
    + intros i Hi. assert (K : occurs_at p (c :: a ++ p ++ b) (S i)) by (apply (find_step p c (a ++ p ++ b) E); exists i; auto). apply H in K. cbn [List.length] in K. lia.
Qed.
Lemma max_none p n t : (forall i, ~ occurs_at p t i) -> forall cur, split_max p n O cur t = [rev cur ++ t].
Proof.
  destruct n as [|n]; [intros _ cur; apply max_zero|].
  induction t as [|c t IH]; intros H cur; [cbn [split_max]; rewrite app_nil_r; reflexivity|].
  assert (E : startswith p (c :: t) = false).
  { destruct (startswith p (c :: t)) eqn:E; [|reflexivity]. exfalso. apply (H O). apply occurs_skipn. split; [cbn; lia|exact E]. }
  cbn [split_max]. rewrite E, IH; [cbn [rev]; rewrite <- app_assoc; reflexivity|]. intros i Hi. apply (H (S i)), (find_step p c t E). exists i. auto.
Qed.
Lemma first_parts_exist p n : p <> [] -> forall t, exists l, first_parts p n t l.
Proof.
  intros Hp. induction n as [|n IH]; intros t; [exists [t]; constructor|].
  pose proof (find_first p t) as F. destruct (find_sub p t) as [i|].
  - inversion F as [k Ho Hm Hk|]; [|lia]. replace k with i in * by lia. destruct Ho as (a & b & Et & Ha).
    destruct (IH b) as [l Hl]. exists (a :: l). rewrite Et. apply FP_next; [|exact Hl]. rewrite <- Et, Ha. exact Hm.
  - inversion F as [k Ho Hm Hk|Hn Hk]; [lia|]. exists [t]. apply MoreSpec.FP_last, Hn.
Qed.
Lemma first_parts_split p n t l : p <> [] -> first_parts p n t l -> split_max p n O [] t = l.
Proof.
  intros Hp. induction 1 as [t|n t H|n a b l H Hl IH].
  - apply max_zero.
  - apply max_none, H.
  - rewrite max_first by assumption. rewrite IH. reflexivity.
Qed.

Section Functions.
Variable ec : ectx.
Ltac terms := cbn [is_term forallb]; repeat match goal with H : str_of ?x = Some _ |- context [is_term ?x] => rewrite (string_term x _ H) end; reflexivity.
Lemma call_split_limit x y z t p n : offers ec (lit "split") -> string_value x t -> string_value y p -> p <> [] -> int_value z (Z.of_nat n) ->
  exists l, first_parts p n t l /\ call_yields ec (lit "split") [x; y; z] (NList (map NRaw l)).
Proof.
  unfold string_value. intros Ho Hx Hy Hp Hz. destruct (first_parts_exist p n Hp t) as [l Hl]. exists l. split; [exact Hl|]. destruct (int_value_of z _ Hz) as [Z1 Z2].
  apply (call_offered ec _ b_split _ (NList (map NRaw l)) Ho); [reflexivity| |].
  { cbn [is_term forallb]. rewrite (string_term x t Hx), (string_term y p Hy), Z2. reflexivity. }
  intros st. unfold b_split. destruct y; cbn [str_of] in Hy; try discriminate Hy; unfold on_text; rewrite Hx; cbn [str_of]; rewrite Z1; injection Hy as Hy; rewrite Hy;
    (destruct p; [contradiction|]); replace (Z.of_nat n <? 0)%Z with false by lia; rewrite Nat2Z.id, (first_parts_split _ n t l Hp Hl); reflexivity.
Qed.
Lemma call_replace_limit x y z w t p q n : offers ec (lit "replace") -> string_value x t -> string_value y p -> string_value z q -> p <> [] -> int_value w (Z.of_nat n) ->
  exists l u, first_parts p n t l /\ joined q l u /\ call_yields ec (lit "replace") [x; y; z; w] (NRaw u).
Proof.
  unfold string_value. intros Ho Hx Hy Hz Hp Hw. destruct (first_parts_exist p n Hp t) as [l Hl]. exists l, (join q l). split; [exact Hl|]. split; [apply joined_join|]. destruct (int_value_of w _ Hw) as [W1 W2].
  apply (call_offered ec _ b_replace _ (NRaw (join q l)) Ho); [reflexivity| |].
  { cbn [is_term forallb]. rewrite (string_term x t Hx), (string_term y p Hy), (string_term z q Hz), W2. reflexivity. }
  intros st. unfold b_replace, on_text. rewrite Hx, Hy, Hz, W1. destruct p; [contradiction|]. replace (Z.of_nat n <? 0)%Z with false by lia. rewrite Nat2Z.id, (first_parts_split _ n t l Hp Hl). reflexivity.
Qed.

(** ** center, expandtabs *)
Lemma all_same (c : char) n : Forall (eq c) (repeat c n).
Proof. induction n; constructor; auto. Qed.
Lemma call_center x t w n y c : offers ec (lit "center") -> string_value x t -> int_value w n -> string_value y [c] ->
  exists l r, padding c t n (l ++ r) /\
    (List.length l = List.length r \/ Z.Odd n /\ List.length l = S (List.length r) \/ Z.Even n /\ List.length r = S (List.length l)) /\
    call_yields ec (lit "center") [x; w; y] (NRaw (l ++ t ++ r)) /\ (c = 32%N -> call_yields ec (lit "center") [x; w] (NRaw (l ++ t ++ r))).
Proof.
  unfold string_value. intros Ho Hx Hw Hy. destruct (int_value_of w n Hw) as [W1 W2].
  set (k := center_left (Z.to_nat n) (List.length t)). exists (repeat c k), (repeat c (Z.to_nat n - List.length t - k)).
  assert (Hk : (k <= Z.to_nat n - List.length t)%nat /\ let r := (Z.to_nat n - List.length t - k)%nat in (k = r \/ Z.Odd n /\ k = S r \/ Z.Even n /\ r = S k)).
  { subst k. unfold center_left. set (N := Z.to_nat n). set (m := (N - List.length t)%nat). pose proof (Nat.div_mod m 2 ltac:(lia)) as D. pose proof (Nat.mod_upper_bound m 2 ltac:(lia)) as B.
    assert (Om : Nat.odd m = (m mod 2 =? 1)%nat). { rewrite <- Nat.bit0_odd, Nat.bit0_eqb. reflexivity. }
    destruct (Nat.odd m) eqn:Eo; cbn [andb].
    - assert (Em : (m mod 2 = 1)%nat) by lia. assert (Hn : (0 < n)%Z) by (subst m N; lia).
      destruct (Nat.odd N) eqn:EN; cbn zeta.
      + apply Nat.odd_spec in EN as [h EN]. split; [lia|]. right. left. split; [exists (Z.of_nat h); subst N; lia|lia].
      + assert (Ev : Nat.even N = true) by (rewrite <- Nat.negb_odd, EN; reflexivity). apply Nat.even_spec in Ev as [h Ev]. split; [lia|]. right. right. split; [exists (Z.of_nat h); subst N; lia|lia].
    - cbn zeta. assert (Em : (m mod 2 = 0)%nat) by lia. split; lia. }
  destruct Hk as [Hk1 Hk2]. split; [|split; [|split]].
  - split; [apply Forall_app; split; apply all_same|]. rewrite !app_length, !repeat_length. lia.
  - rewrite !repeat_length. exact Hk2.
  - match goal with |- call_yields _ _ _ ?v => apply (call_offered ec _ b_center _ v Ho) end; [reflexivity| |].
    + cbn [is_term forallb]. rewrite (string_term x t Hx), (string_term y _ Hy), W2. reflexivity.
    + intros st. unfold b_center, on_text. rewrite Hx, Hy, W1. reflexivity.
  - intros ->. match goal with |- call_yields _ _ _ ?v => apply (call_offered ec _ b_center _ v Ho) end; [reflexivity| |].
    + cbn [is_term forallb]. rewrite (string_term x t Hx), W2. reflexivity.
    + intros st. unfold b_center, on_text. rewrite Hx, W1. reflexivity.
Qed.
Lemma expand_col size t : (0 < size)%nat -> forall col, expand_tabs size (col mod size) t = expand_tabs size col t.
Proof.
  intros Hs. induction t as [|c t IH]; intros col; [reflexivity|]. cbn [expand_tabs]. rewrite Nat.mod_mod by lia.
  destruct (c =? 9)%N; [reflexivity|]. destruct ((c =? 10)%N || (c =? 13)%N); [reflexivity|]. f_equal.
  rewrite <- (IH (S (col mod size))), <- (IH (S col)). f_equal. change (S (col mod size)) with (1 + col mod size)%nat. change (S col) with (1 + col)%nat. rewrite Nat.add_mod_idemp_r by lia. reflexivity.
Qed.
Lemma expand_spec size t : (0 < size)%nat -> forall col, tabbed size col t (expand_tabs size col t).
Proof.
  intros Hs. induction t as [|c t IH]; intros col; [constructor|]. cbn [expand_tabs]. destruct (N.eqb_spec c 9) as [-> |H9].
  - pose proof (Nat.mod_upper_bound col size ltac:(lia)) as B. pose proof (Nat.div_mod col size ltac:(lia)) as D.
    set (k := (size - col mod size)%nat). assert (E : ((col + k) mod size = 0)%nat).
    { replace (col + k)%nat with (S (col / size) * size)%nat by (subst k; nia). apply Nat.mod_mul. lia. }
    apply TB_tab; [subst k; lia|exact E|]. replace (expand_tabs size 0 t) with (expand_tabs size (col + k) t); [apply IH|]. rewrite <- (expand_col size t Hs (col + k)), E. reflexivity.
  - destruct ((c =? 10)%N || (c =? 13)%N) eqn:E; [apply TB_break; [lia|apply IH]|apply TB_char; [lia|lia|lia|apply IH]].
Qed.
Lemma call_expandtabs x t w n : offers ec (lit "expandtabs") -> string_value x t -> int_value w (Z.of_nat n) -> (0 < n)%nat ->
  exists u, tabbed n 0 t u /\ call_yields ec (lit "expandtabs") [x; w] (NRaw u) /\ (n = 8%nat -> call_yields ec (lit "expandtabs") [x] (NRaw u)).
Proof.
  unfold string_value. intros Ho Hx Hw Hn. destruct (int_value_of w _ Hw) as [W1 W2]. exists (expand_tabs n 0 t). split; [apply expand_spec, Hn|]. split.
  - match goal with |- call_yields _ _ _ ?v => apply (call_offered ec _ b_expandtabs _ v Ho) end; [reflexivity| |].
    + cbn [is_term forallb]. rewrite (string_term x t Hx), W2. reflexivity.
    + intros st. unfold b_expandtabs, on_text. rewrite Hx, W1. replace (Z.of_nat n <=? 0)%Z with false by lia. rewrite Nat2Z.id. reflexivity.
  - intros ->. match goal with |- call_yields _ _ _ ?v => apply (call_offered ec _ b_expandtabs _ v Ho) end; [reflexivity|terms|].
    intros st. unfold b_expandtabs, on_text. rewrite Hx. reflexivity.
Qed.

(** ** capitalize, cmp, isdigit *)
Lemma call_capitalize x t : offers ec (lit "capitalize") -> string_value x t ->
  exists u, call_yields ec (lit "capitalize") [x] (NRaw u) /\ match t, u with [], [] => True | c :: r, d :: v => to_capital c d /\ Forall2 to_small r v | _, _ => False end.
Proof.
  unfold string_value. intros Ho Hx. exists (match t with [] => [] | c :: r => upper_char c :: lower r end). split.
  - apply (call_offered ec _ b_capitalize _ (NRaw _) Ho); [reflexivity|terms|]. intros st. unfold b_capitalize, b_str1, arg1. rewrite Hx. reflexivity.
  - destruct t as [|c r]; [exact Logic.I|]. split; [|apply lower_spec]. pose proof (upper_spec [c]) as U. inversion U; subst. assumption.
Qed.
Lemma call_cmp x y a b : offers ec (lit "cmp") -> int_value x a -> int_value y b ->
  exists z, call_yields ec (lit "cmp") [x; y] (NInt z) /\ (z = -1 /\ a < b \/ z = 0 /\ a = b \/ z = 1 /\ a > b)%Z.
Proof.
  intros Ho Hx Hy. destruct (int_value_of x a Hx) as [X1 X2], (int_value_of y b Hy) as [Y1 Y2].
  exists (match (a ?= b)%Z with Lt => -1 | Eq => 0 | Gt => 1 end)%Z. split.
  - match goal with |- call_yields _ _ _ ?v => apply (call_offered ec _ b_cmp _ v Ho) end; [reflexivity| |].
    + cbn [is_term forallb]. rewrite X2, Y2. reflexivity.
    + intros st. unfold b_cmp, b_order, arg2. rewrite X1, Y1. reflexivity.
  - destruct (Z.compare_spec a b); lia.
Qed.
Lemma uni_digit_spec t : forallb uni_digit t = true <-> Forall digit_like t.
Proof.
  rewrite forallb_forall, Forall_forall. unfold uni_digit, digit_like. split; intros H c Hc; specialize (H c Hc).
  - apply orb_true_iff in H as [H|H]; [|lia]. apply orb_true_iff in H as [H|H]; [|lia]. apply orb_true_iff in H as [H|H]; [left; apply is_digit_spec, H|lia].
  - destruct H as [H|[-> |[-> | ->]]]; try reflexivity. apply is_digit_spec in H. rewrite H. reflexivity.
Qed.
Lemma call_isdigit x t : offers ec (lit "isdigit") -> string_value x t -> exists z, call_yields ec (lit "isdigit") [x] (NInt z) /\
  (z = 1 /\ t <> [] /\ Forall digit_like t \/ z = 0 /\ ~ (t <> [] /\ Forall digit_like t))%Z.
Proof.
  unfold string_value. intros Ho Hx. exists (match t with [] => 0 | _ => if forallb uni_digit t then 1 else 0 end)%Z. split.
  - assert (K : call_yields ec (lit "isdigit") [x] (builtin_result (NBool (match t with [] => false | _ => forallb uni_digit t end)))).
    { apply (call_offered ec _ b_isdigit _ _ Ho); [reflexivity|terms|]. intros st. unfold b_isdigit, arg1.
      destruct x; cbn [str_of] in Hx; try discriminate Hx; cbn [str_of]; injection Hx as Hx; rewrite Hx; destruct t; reflexivity. }
    cbn [builtin_result] in K. destruct t; exact K.
  - destruct t as [|c t]; [right; split; [reflexivity|intros [K _]; apply K; reflexivity]|]. pose proof (uni_digit_spec (c :: t)) as U. destruct (forallb uni_digit (c :: t)).
    + left. split; [reflexivity|]. split; [discriminate|apply U; reflexivity].
    + right. split; [reflexivity|]. intros [_ K]. apply U in K. discriminate K.
Qed.
End Functions.

(** ** The name of the module *)
Lemma replace_one a b t : replace [a] [b] t = map (fun c => if (c =? a)%N then b else c) t.
Proof.
  unfold replace. induction t as [|c t IH]; [reflexivity|]. cbn [replace_skip startswith List.length pred map app]. rewrite IH, N.eqb_sym. destruct (c =? a)%N; reflexivity.
Qed.
Lemma module_spec d n e : (d = [] \/ exists b, d = b ++ [47%N]) -> simple n -> Exists (fun c => c <> 46%N) n -> ~ In 46%N e -> ~ In 47%N e ->
  Forall2 underscored n (module_name (Some (d ++ n ++ 46%N :: e))).
Proof.
  intros Hd Hn Hx He1 He2. unfold module_name.
  assert (Hb : simple (n ++ 46%N :: e)). { intros H. apply in_app_or in H as [H|[H|H]]; [exact (Hn H)|discriminate|exact (He2 H)]. }
  assert (Eb : basename (d ++ n ++ 46%N :: e) = n ++ 46%N :: e).
  { destruct Hd as [-> |[b ->]]; [apply basename_simple, Hb|]. rewrite <- app_assoc. cbn [app]. apply basename_slash, Hb. }
  rewrite Eb, splitext_stem; [|exists [], n; auto|exact He1|exact He2]. cbn [fst]. rewrite replace_one. clear. induction n as [|c n IH]; [constructor|]. cbn [map upper]. constructor; [|exact IH].
  unfold underscored. destruct (N.eqb_spec c 45) as [-> |H]; [left; split; reflexivity|right; split; [exact H|]]. pose proof (upper_spec [c]) as U. inversion U; subst. assumption.
Qed.
Section Run.
Variable w : world.
Variable cfg : config.
Variables input output : option text.
Variable pr : process.
Variable parse : text -> M (list node).
Lemma run_module cx inp other a e s file pos : s_txt a = lit "__MODULE_NAME__" -> unknown e (s_txt a) -> (forall im, w_scripts w im (s_txt a) = None) ->
  not_configured (k_define cfg) (s_txt a) -> dict_get (s_txt a) (pr_defines pr) = None -> w_rest w = more_builtins cx inp other ->
  evals (run_ectx w cfg input output pr) parse (NApply (NVar (RList []) a) [] [] file pos) e s (NRaw (module_name inp)) e s.
Proof.
  intros Ea Hu Hs Hc Hp Hr. assert (K : forall im, e_builtin (run_ectx w cfg input output pr) im (s_txt a) = Some (BFun (b_module inp))).
  { intros im. rewrite run_builtin, Hs. destruct (constants (k_define cfg) (pr_defines pr) (s_txt a)) as [_ C]. rewrite (C Hc), Hp, Hr, Ea. reflexivity. }
  exact (name_function_of _ parse a [] e s e s _ [] (NRaw (module_name inp)) s file pos Hu (K _) (K _) (args_none _ parse e s) eq_refl eq_refl).
Qed.
Lemma run_module_name cx d n x other a e s file pos : s_txt a = lit "__MODULE_NAME__" -> unknown e (s_txt a) -> (forall im, w_scripts w im (s_txt a) = None) ->
  not_configured (k_define cfg) (s_txt a) -> dict_get (s_txt a) (pr_defines pr) = None ->
  (d = [] \/ exists b, d = b ++ [47%N]) -> simple n -> Exists (fun c => c <> 46%N) n -> ~ In 46%N x -> ~ In 47%N x ->
  w_rest w = more_builtins cx (Some (d ++ n ++ 46%N :: x)) other ->
  exists u, Forall2 underscored n u /\ evals (run_ectx w cfg input output pr) parse (NApply (NVar (RList []) a) [] [] file pos) e s (NRaw u) e s.
Proof. intros Ea Hu Hs Hc Hp Hd Hn Hx H1 H2 Hr. exists (module_name (Some (d ++ n ++ 46%N :: x))). split; [apply module_spec; assumption|]. eapply run_module; eassumption. Qed.
End Run.

(** ** Cases *)
Lemma more_cases :
  call1 "split" [txt "a,b,,c"; txt ","; NInt 1] (NList [NRaw (lit "a"); NRaw (lit "b,,c")]) /\
  call1 "replace" [txt "aaaa"; txt "a"; txt "bb"; NInt 3] (NRaw (lit "bbbbbba")) /\
  call1 "center" [txt "ab"; NInt 5; txt "."] (NRaw (lit "..ab.")) /\ call1 "center" [txt "abc"; NInt 6] (NRaw (lit " abc  ")) /\
  call1 "expandtabs" [NRaw ([97; 9; 98; 10; 9; 99]%N); NInt 4] (NRaw (lit "a   b" ++ 10%N :: lit "    c")) /\
  call1 "capitalize" [txt "hELLO"] (NRaw (lit "Hello")) /\ call1 "cmp" [NInt 3; NInt 5] (NInt (-1)) /\
  call1 "isdigit" [txt "12"] (NInt 1) /\ call1 "isdigit" [txt "1a"] (NInt 0).
Proof. unfold call1; repeat split; run 9%nat. Qed.
Lemma offers3 : Forall (fun n => offers ec1 (lit n)) ["center"; "expandtabs"; "capitalize"; "cmp"; "isdigit"]%string.
Proof. repeat constructor; exists ctx0, None; intros im; reflexivity. Qed.
Lemma module_case : module_name (Some (lit "src/my-lib.yu-c")) = lit "MY_LIB".
Proof. reflexivity. Qed.
