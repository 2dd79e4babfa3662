(** * A header, whole (proofs only) *)
From Coq Require Import List NArith ZArith Bool String Lia ZifyBool ZifyNat ZifyN.
From Verif Require TextSpec.
From Verif Require Import PyStr PyStrFacts Ast Lex LexSpec Parse ParseSpec Final Shell ShellSpec Eval Builtin Builtin2 EnvSpec EvalSpec Pp PpSpec PpCases ExprSpec ExprCases CoreSpec CoreFacts RunSpec Eg SheetSpec SheetCases StdSpec StdRun StdCases ConfSpec ReadCases ReadStd FinalSpec GuardSpec GuardCases GuardRun.
Import ListNotations.
Open Scope list_scope.
Open Scope N_scope.

(** lib/h-light.yu is the only file of the library *)
Definition light_world : world :=
  World (fun p => if teqb p (lit "lib/h-light.yu") then Some (lit h_light_yu) else None) (fun t => t) (fun _ => Err (Exn IOError "")) (fun _ => Err (Exn ValueError "")) (fun _ => [])
        (fun _ _ => None) (fun _ => None) (fun _ => Err (Exn SyntaxError "")) (fun _ _ => Err (Exn KeyError ""))
        (fun t => t) (fun _ => 0%Z) (fun _ => []) (lit "lib") (fun _ _ _ => lit "{}").
Definition light_body : text := lit "int foo_count( void );

struct foo;".
Lemma light_case :
  (language_of lib_output false /\ source_named lib_input (lit "a.yu-c") /\ searched [] (w_lib light_world) lib_input [[]; lit "lib"] /\
   library_file (w_read light_world) [[]; lit "lib"] (lit "h-light.yu") (lit "lib/h-light.yu") (lit h_light_yu)) /\
  (identifier (lit "foo") /\ ~ In 45 (lit "foo") /\ ~ In (lit "foo") (names light_defs) /\ ~ In (lit "foo") special_forms /\
   (forall imported, e_builtin (run_ectx (with_library lib_top lib_input light_world) lib_config lib_input lib_output (Proc [] [])) imported (lit "foo") = None)) /\
  (Forall2 TextSpec.to_capital (lit "foo") (lit "FOO") /\ Forall declaration_char light_body) /\
  pp (with_library lib_top lib_input light_world) lib_config 3 80 (header_source (lit "foo") light_body) lib_input lib_output (Proc [] []) = Ok (PP true (header (lit "FOO") light_body) None None false 0).
Proof.
  split; [|split; [|split]].
  - split; [exact lib_language|]. split; [exact (proj1 lib_found')|]. split; [exact (proj1 (proj2 lib_found'))|].
    apply LF_directory; [reflexivity|]. apply ID_later; [reflexivity|]. change (lit "lib/h-light.yu") with (path_join (lit "lib") (lit "h-light.yu")). apply ID_here. reflexivity.
  - split; [ident|]. split; [intros H; vm_compute in H; intuition discriminate|]. split; [intros H; vm_compute in H; intuition discriminate|]. split; [intros H; vm_compute in H; intuition discriminate|]. intros im. reflexivity.
  - split.
    + repeat (apply Forall2_cons; [left; split; [vm_compute; split; discriminate|reflexivity]|]). constructor.
    + apply Forall_forall. intros c H. vm_compute in H. unfold declaration_char. cbn [In]. intuition lia.
  - vm_compute. reflexivity.
Qed.
Lemma settled_case : settled light_body /\
  pp (with_library lib_top lib_input light_world) (library_config true true [] 0) 3 80 (header_source (lit "foo") light_body) lib_input lib_output (Proc [] []) = Ok (PP true (header (lit "FOO") light_body) None None false 0).
Proof.
  split; [|vm_compute; reflexivity]. exists [lit "int foo_count( void );"; []; lit "struct foo;"]. split; [vm_compute; reflexivity|].
  assert (B : forall l, forallb (fun c => negb (py_isbreak c)) l = true -> no_break l) by (intros l H; apply Forall_forall; intros c Hc; rewrite forallb_forall in H; specialize (H c Hc); destruct (py_isbreak c); [discriminate H|reflexivity]).
  split; [|split; [|split; discriminate]].
  - repeat (apply Forall_cons; [split; [apply B; vm_compute; reflexivity|]|]); [| | |apply Forall_nil].
    + right. exists (lit "int foo_count( void )"), 59. split; vm_compute; reflexivity.
    + left. reflexivity.
    + right. exists (lit "struct foo"), 59. split; vm_compute; reflexivity.
  - split; [intros [H _]; discriminate H|split; [intros [_ H]; discriminate H|exact Logic.I]].
Qed.
Lemma use_case :
  (solid (lit "FOO") /\ Forall (fun c => declaration_char c /\ c <> 10 /\ c <> 64) (lit "bool plugh")) /\
  pp (with_library lib_top lib_input light_world) lib_config 3 80
     (lit "($import h-light)($h-begin foo)
($var,,bool plugh)
($inline) int qux( int a );
($h-end)") lib_input lib_output (Proc [] []) =
    Ok (PP true (header (lit "FOO") (lit "FOO_VAR( bool plugh );
FOO_INL int qux( int a );")) None None false 0).
Proof.
  split; [split|vm_compute; reflexivity].
  - split; [repeat constructor|]. exists 70, (lit "OO"). split; [reflexivity|split; discriminate].
  - apply Forall_forall. intros c H. vm_compute in H. unfold declaration_char. cbn [In]. intuition lia.
Qed.
Lemma implement_case :
  pp (with_library lib_top lib_input light_world) lib_config 3 80 (lit "($import h-light)($implement foo)#include ""foo.h""") lib_input lib_output (Proc [] []) =
    Ok (PP true (10 :: lit "#define " ++ lit "FOO" ++ lit "_IMPLEMENT" ++ 10 :: lit "#include ""foo.h""") None None false 0).
Proof. vm_compute. reflexivity. Qed.
