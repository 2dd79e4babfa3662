(** * The model run on the examples of /repo/eg

    Each example is preprocessed by [Pp.pp], with the libraries of /repo/lib, and
    the text is compared with the generated file kept beside the example. *)
From Coq Require Import List NArith ZArith Bool String.
From Verif Require Import PyStr LexSpec Ast Lex Parse Final ParseCases Eval Builtin Builtin2 Shell Pp Title PpCases Kit Eg KitCases.
Import ListNotations.
Open Scope string_scope.
Open Scope list_scope.

Definition libraries : list (string * string) :=
  [ ("lib/stdlib.yu", stdlib_yu); ("lib/corolib.yu", corolib_yu); ("lib/coroutine.yu", coroutine_yu);
    ("lib/coroutine-h.yu", coroutine_h_yu); ("lib/hlib.yu", hlib_yu); ("lib/h.yu", h_yu); ("lib/h-light.yu", h_light_yu);
    ("app.yu", app_yu); ("co-dict.yu", co_dict_yu); ("config.yu", config_yu) ].
(** [version], [now]: what the title of the kept output says *)
Definition eg_table : list (text * (frame -> option node)) :=
  [(lit "pi", fun _ => Some (fl "3.141592653589793")); (lit "355/113", fun _ => Some (fl "3.1415929203539825"))] ++ std_table.
Definition eg_world (app input version now output : string) : world :=
  let cx := kit_pctx [] "" in
  World (disk_of libraries) kit_unq (fun _ => Err (Exn IOError "")) (fun _ => Err (Exn ValueError "")) (fun _ => [])
        (fun _ _ => None)
        (more_builtins cx (Some (lit input)) (titled (lit app) (lit version) (lit now) (Some (lit input)) (Some (lit output)) (fun _ => None)))
        kit_names (kit_infix eg_table) (fun t => t) (fun _ => 0%Z) (fun _ => []) (lit "lib") (fun _ _ _ => lit "{}").
Definition eg_run (input output version now source : string) (passage : Z) (browse : bool) : res ppres :=
  pp (eg_world (if teqb (lit version) (lit "1.0c3") || teqb (lit version) (lit "1.0b2") then "yup.py (yupp)" else "yupp") input version now output) (Config 0 true true browse [] [] passage) 8 600 (lit source) (Some (lit input)) (Some (lit output)) process0.
Definition made (r : res ppres) : option (bool * text) := match r with Ok p => Some (p_ok p, p_plain p) | _ => None end.
(** with browsing, blanks at the ends of lines stay *)
Definition tidied (x : option (bool * text)) : option (bool * text) :=
  match x with Some (ok, t) => Some (ok, reduce_emptiness true t) | None => None end.

Example hello : made (eg_run "hello.yu-c" "hello.c" "" "" hello_yu_c 0 false) = Some (true, lit hello_c). Proof. vm_compute. reflexivity. Qed.
Example hello_browse : tidied (made (eg_run "hello.yu-c" "hello.c" "" "" hello_yu_c 0 true)) = Some (true, lit hello_c). Proof. vm_compute. reflexivity. Qed.
Example unfold : made (eg_run "unfold.yu-c" "unfold.c" "1.2b1" "" unfold_yu_c 0 false) = Some (true, lit unfold_c). Proof. vm_compute. reflexivity. Qed.
Example unfold_browse : tidied (made (eg_run "unfold.yu-c" "unfold.c" "1.2b1" "" unfold_yu_c 0 true)) = Some (true, lit unfold_c). Proof. vm_compute. reflexivity. Qed.
Example dict : made (eg_run "dict.yu-c" "dict.c" "1.2b1" "" dict_yu_c 0 false) = Some (true, lit dict_c). Proof. vm_compute. reflexivity. Qed.
Example dict_browse : tidied (made (eg_run "dict.yu-c" "dict.c" "1.2b1" "" dict_yu_c 0 true)) = Some (true, lit dict_c). Proof. vm_compute. reflexivity. Qed.
Example argv : made (eg_run "argv.yu-c" "argv.c" "1.2b5" "2021-01-05 18:57" argv_yu_c 0 false) = Some (true, lit argv_c). Proof. vm_compute. reflexivity. Qed.
Example argv_browse : tidied (made (eg_run "argv.yu-c" "argv.c" "1.2b5" "2021-01-05 18:57" argv_yu_c 0 true)) = Some (true, lit argv_c). Proof. vm_compute. reflexivity. Qed.
Example passage_a : made (eg_run "passage.yu-c" "passage.c" "1.2b1" "2020-12-29 13:42" passage_yu_c 0 false) = Some (true, lit passage_a_c). Proof. vm_compute. reflexivity. Qed.
Example passage_a_browse : tidied (made (eg_run "passage.yu-c" "passage.c" "1.2b1" "2020-12-29 13:42" passage_yu_c 0 true)) = Some (true, lit passage_a_c). Proof. vm_compute. reflexivity. Qed.
Example passage_b : made (eg_run "passage.yu-c" "passage.c" "1.2b1" "2020-12-29 13:42" passage_yu_c 1 false) = Some (true, lit passage_b_c). Proof. vm_compute. reflexivity. Qed.
Example passage_b_browse : tidied (made (eg_run "passage.yu-c" "passage.c" "1.2b1" "2020-12-29 13:42" passage_yu_c 1 true)) = Some (true, lit passage_b_c). Proof. vm_compute. reflexivity. Qed.
Example passage_c : made (eg_run "passage.yu-c" "passage.c" "1.2b1" "2020-12-29 13:42" passage_yu_c 2 false) = Some (true, lit passage_c_c). Proof. vm_compute. reflexivity. Qed.
Example passage_c_browse : tidied (made (eg_run "passage.yu-c" "passage.c" "1.2b1" "2020-12-29 13:42" passage_yu_c 2 true)) = Some (true, lit passage_c_c). Proof. vm_compute. reflexivity. Qed.
Example coro : made (eg_run "coro.yu-c" "coro.c" "1.2b2" "" coro_yu_c 0 false) = Some (true, lit coro_c). Proof. vm_compute. reflexivity. Qed.
Example coro_browse : tidied (made (eg_run "coro.yu-c" "coro.c" "1.2b2" "" coro_yu_c 0 true)) = Some (true, lit coro_c). Proof. vm_compute. reflexivity. Qed.
Example ulam : made (eg_run "ulam.yu-c" "ulam.c" "1.2b5" "2021-01-05 18:45" ulam_yu_c 0 false) = Some (true, lit ulam_c). Proof. vm_compute. reflexivity. Qed.
Example ulam_browse : tidied (made (eg_run "ulam.yu-c" "ulam.c" "1.2b5" "2021-01-05 18:45" ulam_yu_c 0 true)) = Some (true, lit ulam_c). Proof. vm_compute. reflexivity. Qed.
Example gpio : made (eg_run "gpio.yu-c" "gpio.c" "1.2b1" "" gpio_yu_c 0 false) = Some (true, lit gpio_c). Proof. vm_compute. reflexivity. Qed.
Example gpio_browse : tidied (made (eg_run "gpio.yu-c" "gpio.c" "1.2b1" "" gpio_yu_c 0 true)) = Some (true, lit gpio_c). Proof. vm_compute. reflexivity. Qed.
Example dict_python : made (eg_run "dict.yu-py" "dict.py" "1.2b1" "" dict_yu_py 0 false) = Some (true, lit dict_py). Proof. vm_compute. reflexivity. Qed.
Example dict_python_browse : tidied (made (eg_run "dict.yu-py" "dict.py" "1.2b1" "" dict_yu_py 0 true)) = Some (true, lit dict_py). Proof. vm_compute. reflexivity. Qed.
Example glance : made (eg_run "glance.yu-cpp" "glance.cpp" "" "" glance_yu_cpp 0 false) = Some (true, lit glance_cpp). Proof. vm_compute. reflexivity. Qed.
Example glance_browse : tidied (made (eg_run "glance.yu-cpp" "glance.cpp" "" "" glance_yu_cpp 0 true)) = Some (true, lit glance_cpp). Proof. vm_compute. reflexivity. Qed.
Example glance_python : made (eg_run "glance.yu-py" "glance.py" "1.2b1" "" glance_yu_py 0 false) = Some (true, lit glance_py). Proof. vm_compute. reflexivity. Qed.
Example glance_python_browse : tidied (made (eg_run "glance.yu-py" "glance.py" "1.2b1" "" glance_yu_py 0 true)) = Some (true, lit glance_py). Proof. vm_compute. reflexivity. Qed.
Example app_main_browse : made (eg_run "main.yu-c" "main.c" "1.0c3" "" main_yu_c 0 true) = Some (true, lit main_c). Proof. vm_compute. reflexivity. Qed.
Example app_co_browse : made (eg_run "co.yu-c" "co.c" "1.0b2" "" co_yu_c 0 true) = Some (true, lit co_c). Proof. vm_compute. reflexivity. Qed.
