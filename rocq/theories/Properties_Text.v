(** * Text and number functions: C49, C50, slices and counts of C26 *)
From Coq Require Import List NArith ZArith Bool String.
From Verif Require Import PyStr Ast Eval Builtin Builtin2 LexSpec EnvSpec EvalSpec EvalCases BuiltinSpec TextSpec TextCases MoreSpec MoreCases.
Import ListNotations.
Open Scope list_scope.

(** ** C49 *)
Theorem C49_split ec x y t p : offers ec (lit "split") -> string_value x t -> string_value y p -> p <> [] ->
  exists l, parts p t l /\ call_yields ec (lit "split") [x; y] (NList (map NRaw l)).
Proof. exact (call_split ec x y t p). Qed.
Print Assumptions C49_split.
Theorem C49_split_words ec x t : offers ec (lit "split") -> string_value x t ->
  exists l, words_of t l /\ call_yields ec (lit "split") [x] (NList (map NRaw l)).
Proof. exact (call_split_words ec x t). Qed.
Print Assumptions C49_split_words.
Theorem C49_join ec l ts y p : offers ec (lit "join") -> Forall2 string_value l ts -> string_value y p ->
  exists t, joined p ts t /\ call_yields ec (lit "join") [NList l; y] (NRaw t).
Proof. exact (call_join ec l ts y p). Qed.
Print Assumptions C49_join.
Theorem C49_split_then_join ec x y z t p : offers ec (lit "split") -> offers ec (lit "join") -> string_value x t -> string_value y p -> string_value z p -> p <> [] ->
  exists v, call_yields ec (lit "split") [x; y] v /\ call_yields ec (lit "join") [v; z] (NRaw t).
Proof. exact (call_split_join ec x y z t p). Qed.
Print Assumptions C49_split_then_join.
Theorem C49_replace ec x y z t p q : offers ec (lit "replace") -> string_value x t -> string_value y p -> string_value z q -> p <> [] ->
  exists l u, parts p t l /\ joined q l u /\ call_yields ec (lit "replace") [x; y; z] (NRaw u).
Proof. exact (call_replace ec x y z t p q). Qed.
Print Assumptions C49_replace.
Theorem C49_count ec x y t p : offers ec (lit "count") -> string_value x t -> string_value y p -> p <> [] ->
  exists l n, parts p t l /\ List.length l = S n /\ call_yields ec (lit "count") [x; y] (NInt (Z.of_nat n)).
Proof. exact (call_count ec x y t p). Qed.
Print Assumptions C49_count.
Theorem C49_find ec x y t p : offers ec (lit "find") -> string_value x t -> string_value y p ->
  exists i, first_place p t i /\ call_yields ec (lit "find") [x; y] (NInt i).
Proof. exact (call_find ec x y t p). Qed.
Print Assumptions C49_find.
Theorem C49_rfind ec x y t p : offers ec (lit "rfind") -> string_value x t -> string_value y p ->
  exists i, last_place p t i /\ call_yields ec (lit "rfind") [x; y] (NInt i).
Proof. exact (call_rfind ec x y t p). Qed.
Print Assumptions C49_rfind.
Theorem C49_strip_characters ec x y t cs : offers ec (lit "strip") -> offers ec (lit "lstrip") -> offers ec (lit "rstrip") -> string_value x t -> string_value y cs ->
  exists l r b, cut_left (fun c => In c cs) t l /\ cut_right (fun c => In c cs) t r /\ cut_right (fun c => In c cs) l b /\
    call_yields ec (lit "lstrip") [x; y] (NRaw l) /\ call_yields ec (lit "rstrip") [x; y] (NRaw r) /\ call_yields ec (lit "strip") [x; y] (NRaw b).
Proof. exact (call_strip_chars ec x y t cs). Qed.
Print Assumptions C49_strip_characters.
Theorem C49_strip_space ec x t : offers ec (lit "strip") -> offers ec (lit "lstrip") -> offers ec (lit "rstrip") -> string_value x t ->
  exists l r b, cut_left space t l /\ cut_right space t r /\ cut_right space l b /\
    call_yields ec (lit "lstrip") [x] (NRaw l) /\ call_yields ec (lit "rstrip") [x] (NRaw r) /\ call_yields ec (lit "strip") [x] (NRaw b).
Proof. exact (call_strip_space ec x t). Qed.
Print Assumptions C49_strip_space.
Theorem C49_pad ec x t w n y c : offers ec (lit "ljust") -> offers ec (lit "rjust") -> string_value x t -> int_value w n -> string_value y [c] ->
  exists pad, padding c t n pad /\ call_yields ec (lit "ljust") [x; w; y] (NRaw (t ++ pad)) /\ call_yields ec (lit "rjust") [x; w; y] (NRaw (pad ++ t)).
Proof. exact (call_just ec x t w n y c). Qed.
Print Assumptions C49_pad.
Theorem C49_zfill ec x sg t w n : offers ec (lit "zfill") -> string_value x (sg ++ t) -> (sg = [43%N] \/ sg = [45%N] \/ (sg = [] /\ ~ begins_with (fun c => c = 43%N \/ c = 45%N) t)) -> int_value w n ->
  exists pad, padding 48 (sg ++ t) n pad /\ call_yields ec (lit "zfill") [x; w] (NRaw (sg ++ pad ++ t)).
Proof. exact (call_zfill ec x sg t w n). Qed.
Print Assumptions C49_zfill.
Theorem C49_letter_case ec x t : offers ec (lit "lower") -> offers ec (lit "upper") -> offers ec (lit "swapcase") -> string_value x t ->
  exists l u w, Forall2 to_small t l /\ Forall2 to_capital t u /\ Forall2 to_other t w /\
    call_yields ec (lit "lower") [x] (NRaw l) /\ call_yields ec (lit "upper") [x] (NRaw u) /\ call_yields ec (lit "swapcase") [x] (NRaw w).
Proof. exact (call_case ec x t). Qed.
Print Assumptions C49_letter_case.
(** for one character *)
Theorem C49_code_points ec x c : offers ec (lit "ord") -> offers ec (lit "chr") -> string_value x [c] -> (c < 1114112)%N ->
  exists v, call_yields ec (lit "ord") [x] v /\ call_yields ec (lit "chr") [v] (NRaw [c]) /\ v = NInt (Z.of_N c).
Proof. exact (call_chr_ord ec x c). Qed.
Print Assumptions C49_code_points.
Theorem C49_slice ec l t x y a b : offers ec (lit "getslice") -> string_value l t -> int_value x a -> int_value y b ->
  exists w, slice_of t a b w /\ call_yields ec (lit "getslice") [l; x; y] (NRaw w).
Proof. exact (call_getslice_text ec l t x y a b). Qed.
Print Assumptions C49_slice.
Theorem C49_split_limit ec x y z t p n : offers ec (lit "split") -> string_value x t -> string_value y p -> p <> [] -> int_value z (Z.of_nat n) ->
  exists l, first_parts p n t l /\ call_yields ec (lit "split") [x; y; z] (NList (map NRaw l)).
Proof. exact (call_split_limit ec x y z t p n). Qed.
Print Assumptions C49_split_limit.
Theorem C49_replace_limit ec x y z w t p q n : offers ec (lit "replace") -> string_value x t -> string_value y p -> string_value z q -> p <> [] -> int_value w (Z.of_nat n) ->
  exists l u, first_parts p n t l /\ joined q l u /\ call_yields ec (lit "replace") [x; y; z; w] (NRaw u).
Proof. exact (call_replace_limit ec x y z w t p q n). Qed.
Print Assumptions C49_replace_limit.
Theorem C49_center ec x t w n y c : offers ec (lit "center") -> string_value x t -> int_value w n -> string_value y [c] ->
  exists l r, padding c t n (l ++ r) /\
    (List.length l = List.length r \/ Z.Odd n /\ List.length l = S (List.length r) \/ Z.Even n /\ List.length r = S (List.length l)) /\
    call_yields ec (lit "center") [x; w; y] (NRaw (l ++ t ++ r)) /\ (c = 32%N -> call_yields ec (lit "center") [x; w] (NRaw (l ++ t ++ r))).
Proof. exact (call_center ec x t w n y c). Qed.
Print Assumptions C49_center.
Theorem C49_expandtabs ec x t w n : offers ec (lit "expandtabs") -> string_value x t -> int_value w (Z.of_nat n) -> (0 < n)%nat ->
  exists u, tabbed n 0 t u /\ call_yields ec (lit "expandtabs") [x; w] (NRaw u) /\ (n = 8%nat -> call_yields ec (lit "expandtabs") [x] (NRaw u)).
Proof. exact (call_expandtabs ec x t w n). Qed.
Print Assumptions C49_expandtabs.
Theorem C49_capitalize ec x t : offers ec (lit "capitalize") -> string_value x t ->
  exists u, call_yields ec (lit "capitalize") [x] (NRaw u) /\ match t, u with [], [] => True | c :: r, d :: v => to_capital c d /\ Forall2 to_small r v | _, _ => False end.
Proof. exact (call_capitalize ec x t). Qed.
Print Assumptions C49_capitalize.
Theorem C49_isdigit ec x t : offers ec (lit "isdigit") -> string_value x t -> exists z, call_yields ec (lit "isdigit") [x] (NInt z) /\
  (z = 1 /\ t <> [] /\ Forall digit_like t \/ z = 0 /\ ~ (t <> [] /\ Forall digit_like t))%Z.
Proof. exact (call_isdigit ec x t). Qed.
Print Assumptions C49_isdigit.
Example C49_more_cases :
  call1 "split" [txt "a,b,,c"; txt ","; NInt 1] (NList [NRaw (lit "a"); NRaw (lit "b,,c")]) /\
  call1 "replace" [txt "aaaa"; txt "a"; txt "bb"; NInt 3] (NRaw (lit "bbbbbba")) /\
  call1 "center" [txt "ab"; NInt 5; txt "."] (NRaw (lit "..ab.")) /\ call1 "center" [txt "abc"; NInt 6] (NRaw (lit " abc  ")) /\
  call1 "expandtabs" [NRaw ([97; 9; 98; 10; 9; 99]%N); NInt 4] (NRaw (lit "a   b" ++ 10%N :: lit "    c")) /\
  call1 "capitalize" [txt "hELLO"] (NRaw (lit "Hello")) /\ call1 "cmp" [NInt 3; NInt 5] (NInt (-1)) /\
  call1 "isdigit" [txt "12"] (NInt 1) /\ call1 "isdigit" [txt "1a"] (NInt 0).
Proof. exact more_cases. Qed.
Example C49_more_offered_case : Forall (fun n => offers ec1 (lit n)) ["center"; "expandtabs"; "capitalize"; "cmp"; "isdigit"]%string.
Proof. exact offers3. Qed.
Example C49_case :
  call1 "split" [txt "a,b,,c"; txt ","] (NList [NRaw (lit "a"); NRaw (lit "b"); NRaw []; NRaw (lit "c")]) /\
  call1 "split" [txt "  to  be "] (NList [NRaw (lit "to"); NRaw (lit "be")]) /\
  call1 "join" [NList [txt "a"; txt "b"]; txt "--"] (NRaw (lit "a--b")) /\
  call1 "replace" [txt "aaaa"; txt "aaa"; txt "b"] (NRaw (lit "ba")) /\
  call1 "count" [txt "aaaaa"; txt "aa"] (NInt 2) /\
  call1 "find" [txt "banana"; txt "na"] (NInt 2) /\ call1 "rfind" [txt "banana"; txt "na"] (NInt 4) /\
  call1 "strip" [txt "xxhix"; txt "x"] (NRaw (lit "hi")) /\ call1 "lstrip" [txt "xxhix"; txt "x"] (NRaw (lit "hix")) /\
  call1 "rjust" [txt "ab"; NInt 4; txt "."] (NRaw (lit "..ab")) /\ call1 "ljust" [txt "ab"; NInt 1; txt "."] (NRaw (lit "ab")) /\
  call1 "zfill" [txt "-7"; NInt 4] (NRaw (lit "-007")) /\ call1 "swapcase" [txt "aB1"] (NRaw (lit "Ab1")).
Proof. exact text_cases. Qed.
Example C49_offered_case : Forall (fun n => offers ec1 (lit n)) ["split"; "join"; "replace"; "count"; "find"; "rfind"; "strip"; "lstrip"; "rstrip"; "ljust"; "rjust"; "zfill"; "atoi"; "str"; "hex"; "oct";
  "lower"; "upper"; "swapcase"; "ord"; "chr"; "lt"; "floordiv"; "mod"; "and"; "or"; "xor"; "invert"; "lshift"; "rshift"; "add"; "neg"; "sum"; "getslice"]%string.
Proof. exact offers1. Qed.

(** ** C50 *)
Theorem C50_arithmetic ec x y a b : offers ec (lit "add") -> offers ec (lit "sub") -> offers ec (lit "mul") -> offers ec (lit "neg") -> offers ec (lit "abs") -> offers ec (lit "inc") -> offers ec (lit "dec") ->
  int_value x a -> int_value y b ->
  call_yields ec (lit "add") [x; y] (NInt (a + b)) /\ call_yields ec (lit "sub") [x; y] (NInt (a - b)) /\ call_yields ec (lit "mul") [x; y] (NInt (a * b)) /\
  call_yields ec (lit "neg") [x] (NInt (- a)) /\ call_yields ec (lit "abs") [x] (NInt (Z.abs a)) /\ call_yields ec (lit "inc") [x] (NInt (a + 1)) /\ call_yields ec (lit "dec") [x] (NInt (a - 1)).
Proof. exact (call_arith ec x y a b). Qed.
Print Assumptions C50_arithmetic.
Theorem C50_comparison ec x y a b : offers ec (lit "lt") -> offers ec (lit "le") -> offers ec (lit "gt") -> offers ec (lit "ge") -> int_value x a -> int_value y b ->
  exists l le g ge, call_yields ec (lit "lt") [x; y] (NInt l) /\ call_yields ec (lit "le") [x; y] (NInt le) /\
    call_yields ec (lit "gt") [x; y] (NInt g) /\ call_yields ec (lit "ge") [x; y] (NInt ge) /\
    ((l = 1 /\ a < b \/ l = 0 /\ ~ a < b) /\ (le = 1 /\ a <= b \/ le = 0 /\ ~ a <= b) /\
     (g = 1 /\ a > b \/ g = 0 /\ ~ a > b) /\ (ge = 1 /\ a >= b \/ ge = 0 /\ ~ a >= b))%Z.
Proof. exact (call_compare ec x y a b). Qed.
Print Assumptions C50_comparison.
Theorem C50_cmp ec x y a b : offers ec (lit "cmp") -> int_value x a -> int_value y b ->
  exists z, call_yields ec (lit "cmp") [x; y] (NInt z) /\ (z = -1 /\ a < b \/ z = 0 /\ a = b \/ z = 1 /\ a > b)%Z.
Proof. exact (call_cmp ec x y a b). Qed.
Print Assumptions C50_cmp.
Theorem C50_division ec x y a b : offers ec (lit "floordiv") -> offers ec (lit "mod") -> int_value x a -> int_value y b -> b <> 0%Z ->
  exists q r, (a = b * q + r)%Z /\ (0 <= r < b \/ b < r <= 0)%Z /\
    call_yields ec (lit "floordiv") [x; y] (NInt q) /\ call_yields ec (lit "mod") [x; y] (NInt r).
Proof. exact (call_divide ec x y a b). Qed.
Print Assumptions C50_division.
Theorem C50_bits ec x y a b : offers ec (lit "and") -> offers ec (lit "or") -> offers ec (lit "xor") -> offers ec (lit "invert") -> int_value x a -> int_value y b ->
  exists c d f g, call_yields ec (lit "and") [x; y] (NInt c) /\ call_yields ec (lit "or") [x; y] (NInt d) /\ call_yields ec (lit "xor") [x; y] (NInt f) /\ call_yields ec (lit "invert") [x] (NInt g) /\
    forall n, (0 <= n)%Z -> Z.testbit c n = Z.testbit a n && Z.testbit b n /\ Z.testbit d n = Z.testbit a n || Z.testbit b n /\
      Z.testbit f n = xorb (Z.testbit a n) (Z.testbit b n) /\ Z.testbit g n = negb (Z.testbit a n).
Proof. exact (call_bits ec x y a b). Qed.
Print Assumptions C50_bits.
Theorem C50_shifts ec x y a b : offers ec (lit "lshift") -> offers ec (lit "rshift") -> int_value x a -> int_value y b -> (0 <= b)%Z ->
  exists q r, (a = 2 ^ b * q + r)%Z /\ (0 <= r < 2 ^ b)%Z /\
    call_yields ec (lit "lshift") [x; y] (NInt (a * 2 ^ b)) /\ call_yields ec (lit "rshift") [x; y] (NInt q).
Proof. exact (call_shift ec x y a b). Qed.
Print Assumptions C50_shifts.
Theorem C50_sum ec l zs : offers ec (lit "sum") -> Forall2 int_value l zs -> call_yields ec (lit "sum") [NList l] (NInt (fold_right Z.add 0%Z zs)).
Proof. exact (call_sum ec l zs). Qed.
Print Assumptions C50_sum.
Theorem C50_decimal_text ec z : offers ec (lit "str") -> exists ds, digits_of decimal_digit 10 (Z.abs z) ds /\ call_yields ec (lit "str") [NInt z] (NRaw ((if (z <? 0)%Z then [45%N] else []) ++ ds)).
Proof. exact (call_str ec z). Qed.
Print Assumptions C50_decimal_text.
Theorem C50_read_back ec z : offers ec (lit "str") -> offers ec (lit "atoi") ->
  exists v, call_yields ec (lit "str") [NInt z] v /\ call_yields ec (lit "atoi") [v] (NInt z).
Proof. exact (call_str_atoi ec z). Qed.
Print Assumptions C50_read_back.
Theorem C50_reading ec x base b sg ds : offers ec (lit "atoi") -> string_value x (sg ++ ds) -> int_value base b -> (2 <= b <= 16)%Z ->
  (sg = [] \/ sg = [43%N] \/ sg = [45%N]) -> ds <> [] -> Forall (fun c => hex_digit c /\ (digit_value c < b)%Z) ds ->
  call_yields ec (lit "atoi") [x; base] (NInt (if teqb sg [45%N] then - value b ds else value b ds)).
Proof. exact (call_atoi ec x base b sg ds). Qed.
Print Assumptions C50_reading.
Theorem C50_hexadecimal ec x z : offers ec (lit "hex") -> int_value x z -> exists ds, digits_of lower_hex_digit 16 (Z.abs z) ds /\
  call_yields ec (lit "hex") [x] (NRaw ((if (z <? 0)%Z then [45%N] else []) ++ lit "0x" ++ ds)).
Proof. exact (call_hex ec x z). Qed.
Print Assumptions C50_hexadecimal.
Theorem C50_octal ec x z : offers ec (lit "oct") -> int_value x z -> exists ds, digits_of oct_digit 8 (Z.abs z) ds /\
  call_yields ec (lit "oct") [x] (NRaw ((if (z <? 0)%Z then [45%N] else []) ++ lit "0o" ++ ds)).
Proof. exact (call_oct ec x z). Qed.
Print Assumptions C50_octal.
Example C50_case :
  call1 "atoi" [txt "-fF"; NInt 16] (NInt (-255)) /\ call1 "str" [NInt (-10)] (NRaw (lit "-10")) /\
  call1 "hex" [NInt (-255)] (NRaw (lit "-0xff")) /\ call1 "oct" [NInt 8] (NRaw (lit "0o10")) /\
  call1 "ord" [txt "A"] (NInt 65) /\ call1 "chr" [NInt 65] (NRaw (lit "A")) /\
  call1 "lt" [NInt 1; NInt 2] (NInt 1) /\ call1 "floordiv" [NInt (-7); NInt 2] (NInt (-4)) /\ call1 "mod" [NInt (-7); NInt 2] (NInt 1) /\
  call1 "xor" [NInt 6; NInt 3] (NInt 5) /\ call1 "invert" [NInt 6] (NInt (-7)) /\ call1 "rshift" [NInt (-7); NInt 1] (NInt (-4)) /\
  call1 "sum" [NList [NInt 1; NInt 2; NInt 3]] (NInt 6) /\
  call1 "getslice" [NList [NInt 1; NInt 2; NInt 3]; NInt 1; NInt (-1)] (NList [NInt 2]).
Proof. exact number_cases. Qed.

(** ** C26 *)
Theorem C26_slice ec l x y a b : offers ec (lit "getslice") -> is_term (NList l) = true -> int_value x a -> int_value y b ->
  exists w, slice_of l a b w /\ call_yields ec (lit "getslice") [NList l; x; y] (NList w).
Proof. exact (call_getslice ec l x y a b). Qed.
Print Assumptions C26_slice.
Theorem C26_count ec l v : offers ec (lit "count") -> is_term (NList [NList l; v]) = true -> exists w, call_yields ec (lit "count") [NList l; v] (NInt (Z.of_nat (List.length w))) /\
  exists mask, List.length mask = List.length l /\ (forall i x, nth_error l i = Some x -> nth_error mask i = Some true <-> equal x v) /\ w = map fst (filter snd (combine l mask)).
Proof. exact (call_count_list ec l v). Qed.
Print Assumptions C26_count.
Example C26_slice_case : call1 "getslice" [NList [NInt 1; NInt 2; NInt 3]; NInt 1; NInt (-1)] (NList [NInt 2]).
Proof. exact (proj2 (proj2 (proj2 (proj2 (proj2 (proj2 (proj2 (proj2 (proj2 (proj2 (proj2 (proj2 (proj2 number_cases))))))))))))). Qed.
