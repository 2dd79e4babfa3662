(** * Order of texts, copies, occurrence and elements: more of C26 and C49

    Statements only; each proof is one lemma of the facts files. *)
From Coq Require Import List NArith ZArith Bool String.
From Verif Require Import PyStr Ast Eval Builtin Builtin2 LexSpec EnvSpec EvalSpec EvalCases BuiltinSpec TextSpec TextCases MoreSpec OrderCases.
Import ListNotations.
Open Scope list_scope.

(** ** C49: texts *)
Theorem C49_order ec x y t u : offers ec (lit "lt") -> offers ec (lit "le") -> offers ec (lit "gt") -> offers ec (lit "ge") -> offers ec (lit "cmp") -> string_value x t -> string_value y u ->
  exists l le g ge c, call_yields ec (lit "lt") [x; y] (NInt l) /\ call_yields ec (lit "le") [x; y] (NInt le) /\
    call_yields ec (lit "gt") [x; y] (NInt g) /\ call_yields ec (lit "ge") [x; y] (NInt ge) /\ call_yields ec (lit "cmp") [x; y] (NInt c) /\
    (l = 1 /\ before t u \/ l = 0 /\ ~ before t u)%Z /\ (le = 0 /\ before u t \/ le = 1 /\ ~ before u t)%Z /\
    (g = 1 /\ before u t \/ g = 0 /\ ~ before u t)%Z /\ (ge = 0 /\ before t u \/ ge = 1 /\ ~ before t u)%Z /\
    (c = -1 /\ before t u \/ c = 0 /\ t = u \/ c = 1 /\ before u t)%Z.
Proof. exact (call_texts_ordered ec x y t u). Qed.
Print Assumptions C49_order.
(** it is one order for all texts *)
Theorem C49_one_order : (forall t, ~ before t t) /\ (forall t u, before t u \/ t = u \/ before u t) /\ (forall t u v, before t u -> before u v -> before t v).
Proof. exact before_order. Qed.
Print Assumptions C49_one_order.
Theorem C49_copies ec x t w n : offers ec (lit "mul") -> string_value x t -> int_value w n ->
  exists u, copies t n u /\ call_yields ec (lit "mul") [x; w] (NRaw u) /\ call_yields ec (lit "mul") [w; x] (NRaw u).
Proof. exact (call_copies_text ec x t w n). Qed.
Print Assumptions C49_copies.
Theorem C49_contains ec x y t p : offers ec (lit "contains") -> string_value x t -> string_value y p ->
  exists z, call_yields ec (lit "contains") [x; y] (NInt z) /\ (z = 1%Z /\ (exists i, occurs_at p t i) \/ z = 0%Z /\ forall i, ~ occurs_at p t i).
Proof. exact (call_contains_text ec x y t p). Qed.
Print Assumptions C49_contains.
Theorem C49_character_at ec x t w i c : offers ec (lit "getitem") -> string_value x t -> int_value w i -> item_at t i c -> call_yields ec (lit "getitem") [x; w] (NRaw [c]).
Proof. exact (call_item_text ec x t w i c). Qed.
Print Assumptions C49_character_at.
Theorem C49_concat ec x y t u : offers ec (lit "concat") -> offers ec (lit "add") -> string_value x t -> string_value y u ->
  call_yields ec (lit "concat") [x; y] (NRaw (t ++ u)) /\ call_yields ec (lit "add") [x; y] (NRaw (t ++ u)).
Proof. exact (call_concat_text ec x y t u). Qed.
Print Assumptions C49_concat.

(** ** C26: lists *)
Theorem C26_copies ec l w n : offers ec (lit "mul") -> is_term (NList l) = true -> int_value w n ->
  exists u, copies l n u /\ call_yields ec (lit "mul") [NList l; w] (NList u) /\ call_yields ec (lit "mul") [w; NList l] (NList u).
Proof. exact (call_copies_list ec l w n). Qed.
Print Assumptions C26_copies.
Theorem C26_contains ec l v : offers ec (lit "contains") -> is_term (NList [NList l; v]) = true ->
  exists z, call_yields ec (lit "contains") [NList l; v] (NInt z) /\ (z = 1%Z /\ Exists (fun x => equal x v) l \/ z = 0%Z /\ Forall (fun x => ~ equal x v) l).
Proof. exact (call_contains_list ec l v). Qed.
Print Assumptions C26_contains.
(** texts and numbers come back without what else they carry *)
Theorem C26_element_at ec l w i x : offers ec (lit "getitem") -> is_term (NList l) = true -> int_value w i -> item_at l i x ->
  (forall t, string_value x t -> call_yields ec (lit "getitem") [NList l; w] (NRaw t)) /\
  (forall z, int_value x z -> call_yields ec (lit "getitem") [NList l; w] (NInt z)) /\
  (forall m, x = NList m -> call_yields ec (lit "getitem") [NList l; w] x).
Proof. exact (call_item_list ec l w i x). Qed.
Print Assumptions C26_element_at.
Theorem C26_concat ec l m : offers ec (lit "concat") -> offers ec (lit "add") -> is_term (NList l) = true -> is_term (NList m) = true ->
  call_yields ec (lit "concat") [NList l; NList m] (NList (l ++ m)) /\ call_yields ec (lit "add") [NList l; NList m] (NList (l ++ m)).
Proof. exact (call_concat_list ec l m). Qed.
Print Assumptions C26_concat.

Example C49_order_cases :
  call1 "lt" [txt "ab"; txt "abc"] (NInt 1) /\ call1 "lt" [txt "b"; txt "abc"] (NInt 0) /\ call1 "ge" [txt "b"; txt "abc"] (NInt 1) /\ call1 "cmp" [txt "Z"; txt "a"] (NInt (-1)) /\
  call1 "mul" [txt "ab"; NInt 3] (NRaw (lit "ababab")) /\ call1 "mul" [NInt (-1); NList [NInt 1]] (NList []) /\
  call1 "contains" [txt "banana"; txt "nan"] (NInt 1) /\ call1 "contains" [NList [NInt 1; txt "a"]; txt "b"] (NInt 0) /\
  call1 "getitem" [NList [NInt 1; txt "a"]; NInt (-1)] (NRaw (lit "a")) /\ call1 "getitem" [txt "abc"; NInt 0] (NRaw (lit "a")) /\
  call1 "concat" [NList [NInt 1]; NList [NInt 2]] (NList [NInt 1; NInt 2]).
Proof. exact order_cases. Qed.
Example C49_order_offered_case : Forall (fun n => offers ec1 (lit n)) ["lt"; "le"; "gt"; "ge"; "cmp"; "mul"; "contains"; "getitem"; "concat"; "add"]%string.
Proof. exact order_offers. Qed.
Example C49_item_case : item_at (lit "abc") (-3) 97%N /\ item_at (lit "abc") 2 99%N.
Proof. exact item_case. Qed.

(** ** C50 and C53: numbers as texts, signs and truth *)
Theorem C53_number_as_text ec z : offers ec (lit "str") -> offers ec (lit "unq") -> offers ec (lit "q") -> offers ec (lit "qs") -> offers ec (lit "strlen") ->
  exists sg ds, (sg = [45%N] /\ z < 0 \/ sg = [] /\ 0 <= z)%Z /\ ds <> [] /\ Forall decimal_digit ds /\ value 10 ds = Z.abs z /\
    call_yields ec (lit "str") [NInt z] (NRaw (sg ++ ds)) /\ call_yields ec (lit "unq") [NInt z] (NRaw (sg ++ ds)) /\
    call_yields ec (lit "q") [NInt z] (NRaw (34%N :: (sg ++ ds) ++ [34%N])) /\ call_yields ec (lit "qs") [NInt z] (NRaw (39%N :: (sg ++ ds) ++ [39%N])) /\
    call_yields ec (lit "strlen") [NInt z] (NInt (Z.of_nat (List.length (sg ++ ds)))).
Proof. exact (call_number_texts ec z). Qed.
Print Assumptions C53_number_as_text.
Theorem C53_length_of_a_result ec t : offers ec (lit "strlen") -> call_yields ec (lit "strlen") [NRaw t] (NInt (Z.of_nat (List.length t))).
Proof. exact (call_strlen_text ec t). Qed.
Print Assumptions C53_length_of_a_result.
Theorem C50_isdigit ec z : offers ec (lit "isdigit") -> exists d, call_yields ec (lit "isdigit") [NInt z] (NInt d) /\ (d = 1 /\ 0 <= z \/ d = 0 /\ z < 0)%Z.
Proof. exact (call_isdigit_number ec z). Qed.
Print Assumptions C50_isdigit.
Theorem C50_pos ec x z : offers ec (lit "pos") -> int_value x z -> call_yields ec (lit "pos") [x] (NInt z).
Proof. exact (call_pos ec x z). Qed.
Print Assumptions C50_pos.
(** zero, the empty text and the empty list are false, all others true *)
Theorem C50_truth ec : offers ec (lit "truth") ->
  (forall x z, int_value x z -> exists d, call_yields ec (lit "truth") [x] (NInt d) /\ (d = 0 /\ z = 0 \/ d = 1 /\ z <> 0)%Z) /\
  (forall x t, string_value x t -> exists d, call_yields ec (lit "truth") [x] (NInt d) /\ (d = 0%Z /\ t = [] \/ d = 1%Z /\ t <> [])) /\
  (forall l, is_term (NList l) = true -> exists d, call_yields ec (lit "truth") [NList l] (NInt d) /\ (d = 0%Z /\ l = [] \/ d = 1%Z /\ l <> [])).
Proof. exact (call_truth ec). Qed.
Print Assumptions C50_truth.
Example C50_number_cases : call1 "str" [NInt (-12)] (NRaw (lit "-12")) /\ call1 "q" [NInt 7] (NRaw (lit """7""")) /\ call1 "strlen" [NInt (-12)] (NInt 3) /\
  call1 "isdigit" [NInt 0] (NInt 1) /\ call1 "isdigit" [NInt (-1)] (NInt 0) /\ call1 "strlen" [NRaw (lit "abc")] (NInt 3) /\ call1 "pos" [NInt (-3)] (NInt (-3)).
Proof. exact number_cases. Qed.
Example C50_number_offered_case : Forall (fun n => offers ec1 (lit n)) ["str"; "unq"; "q"; "qs"; "strlen"; "isdigit"; "pos"; "truth"]%string.
Proof. exact number_offers. Qed.
