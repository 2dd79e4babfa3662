(** * What a C preprocessor makes of the headers of the library: C65 *)
From Coq Require Import List NArith Bool String.
From Verif Require TextSpec.
From Verif Require Import PyStr Ast LexSpec GuardSpec CppSpec CppCases.
Import ListNotations.
Open Scope list_scope.
Open Scope N_scope.

(** The first inclusion keeps the declarations [b], which have no directives of their own, and nothing
    but blank lines besides; every condition it opens it closes, whatever holds after #if, whatever is
    defined before; afterwards name_H is defined, the helpers are not, and all else is as it was. *)
Theorem C65_included_first holds n N : identifier n -> ~ In 45 n -> Forall2 TextSpec.to_capital n N ->
  forall k D b, forallb (fun c => c) k = true -> D (N ++ lit "_H") = false -> (forall x, b <> x ++ [92]) -> Forall (fun l => directive l = None) (lines_of (b ++ [10])) ->
  exists o D', includes holds k D (lines_of (header N b)) = (o, k, D') /\
    filter (fun l => negb (blank_line l)) o = filter (fun l => negb (blank_line l)) (lines_of (b ++ [10])) /\
    forall m, D' m = if existsb (teqb m) [N ++ lit "_VAR"; N ++ lit "_VAR_INIT"; N ++ lit "_INL"] then false else teqb m (N ++ lit "_H") || D m.
Proof. exact (first_time holds n N). Qed.
Print Assumptions C65_included_first.
(** Where the declarations are, the three helpers are defined *)
Theorem C65_helpers_inside holds n N : identifier n -> ~ In 45 n -> Forall2 TextSpec.to_capital n N ->
  forall k D, forallb (fun c => c) k = true -> D (N ++ lit "_H") = false ->
  exists o D', includes holds k D (lines_of (10 :: filled N header_begin ++ [10])) = (o, true :: k, D') /\ filter (fun l => negb (blank_line l)) o = [] /\
    forall m, D' m = existsb (teqb m) [N ++ lit "_H"; N ++ lit "_VAR"; N ++ lit "_VAR_INIT"; N ++ lit "_INL"] || D m.
Proof. exact (inside holds n N). Qed.
Print Assumptions C65_helpers_inside.
(** Every later inclusion keeps nothing and changes nothing *)
Theorem C65_included_again holds n N : identifier n -> ~ In 45 n -> Forall2 TextSpec.to_capital n N ->
  forall k D b, D (N ++ lit "_H") = true -> (forall x, b <> x ++ [92]) -> Forall (fun l => directive l = None) (lines_of (b ++ [10])) ->
  exists o, includes holds k D (lines_of (header N b)) = (o, k, D) /\ filter (fun l => negb (blank_line l)) o = [].
Proof. exact (again holds n N). Qed.
Print Assumptions C65_included_again.
Example C65_inclusion_case :
  ((forall x, cpp_body <> x ++ [92]) /\ Forall (fun l => directive l = None) (lines_of (cpp_body ++ [10]))) /\
  (let '(o, k, D) := includes (fun _ => true) [] (fun _ => false) (lines_of (header (lit "FOO") cpp_body)) in
   filter (fun l => negb (blank_line l)) o = [lit "int foo_count( void );"; lit "struct foo;  /* # */"] /\ k = [] /\ D (lit "FOO_H") = true /\ D (lit "FOO_VAR") = false /\
   fst (fst (includes (fun _ => true) [] D (lines_of (header (lit "FOO") cpp_body)))) = [[]]).
Proof. exact cpp_case. Qed.
