(** * The model run on the project's own test cases *)
From Coq Require Import List NArith ZArith Bool String.
From Verif Require Import PyStr LexSpec Ast Lex Parse Final ParseCases Eval Builtin Builtin2 EvalCases Kit Eg.
Import ListNotations.
Open Scope list_scope.

(** Trees without locations and indentation, as their equality ignores both
    (283-286, 345-347 and the __eq__ methods of the classes) *)
Definition sk_src (s : source) : source := raw (s_txt s).
Definition sk_region (r : region) : region := match r with RList l => RList (map sk_src l) | RLate => RLate end.
Definition sk_lval (l : lval) : lval := match l with LAtom a => LAtom (sk_src a) | LList l => LList (map sk_src l) end.
Fixpoint skeleton (x : node) : node :=
  match x with
  | NAtom s | NRemark s | NStr s | NPlain s _ _ => NRaw (s_txt s)
  | NVar r a => NVar (sk_region r) (sk_src a)
  | NList l => NList (map skeleton l)
  | NText l a b => NText (map skeleton l) 0 0
  | NEmbed e => NEmbed (skeleton e)
  | NApply f args named _ _ => NApply (skeleton f) (map skeleton args) (map (fun p => (sk_src (fst p), skeleton (snd p))) named) None 0
  | NEval a _ _ => NEval (skeleton a) None None
  | NInfix a _ _ => NInfix (skeleton a) None 0
  | NLet l e f => NLet (sk_lval l) (skeleton e) (skeleton f)
  | NSet l e => NSet (sk_lval l) (skeleton e)
  | NMacro n ps b => NMacro (sk_src n) (map sk_src ps) b
  | NEmit r a f => NEmit (sk_region r) (sk_src a) (skeleton f)
  | NLambda bs f => NLambda (map (fun b => (map sk_src (fst (fst b)), sk_src (snd (fst b)), skeleton (snd b))) bs) (skeleton f)
  | NLambdaV r a f => NLambdaV (sk_region r) (sk_src a) (skeleton f)
  | NCond c a e => NCond (skeleton c) (skeleton a) (skeleton e)
  | _ => x
  end.
Definition kit_start (t : text) : yst :=
  St [(source_empty, (DPath source_empty, [])); (lit "main.yu", (DPath (lit "main.yu"), t))]
     [] [] 0 [] [] None false [] [] [].
Definition parses (cx : pctx) (t : text) : option node :=
  match yuparse cx 5 (lit "main.yu") (kit_start t) with Ok (l, _) => Some (skeleton (NText l 0 0)) | _ => None end.

Example parse_01 : parses (session []) parse_01_source = Some (skeleton parse_01_tree). Proof. vm_compute. reflexivity. Qed.
Example parse_02 : parses (session []) parse_02_source = Some (skeleton parse_02_tree). Proof. vm_compute. reflexivity. Qed.
Example parse_03 : parses (session []) parse_03_source = Some (skeleton parse_03_tree). Proof. vm_compute. reflexivity. Qed.
Example parse_04 : parses (session []) parse_04_source = Some (skeleton parse_04_tree). Proof. vm_compute. reflexivity. Qed.
Example parse_05 : parses (session []) parse_05_source = Some (skeleton parse_05_tree). Proof. vm_compute. reflexivity. Qed.
Example parse_06 : parses (session []) parse_06_source = Some (skeleton parse_06_tree). Proof. vm_compute. reflexivity. Qed.
Example parse_07 : parses (session []) parse_07_source = Some (skeleton parse_07_tree). Proof. vm_compute. reflexivity. Qed.
Example parse_08 : parses (session []) parse_08_source = Some (skeleton parse_08_tree). Proof. vm_compute. reflexivity. Qed.
Example eval_01_parse : parses (session []) eval_01_source = Some (skeleton eval_01_tree). Proof. vm_compute. reflexivity. Qed.
Example eval_02_parse : parses (session []) eval_02_source = Some (skeleton eval_02_tree). Proof. vm_compute. reflexivity. Qed.
Example eval_03_parse : parses (session []) eval_03_source = Some (skeleton eval_03_tree). Proof. vm_compute. reflexivity. Qed.
Example eval_04_parse : parses (session []) eval_04_source = Some (skeleton eval_04_tree). Proof. vm_compute. reflexivity. Qed.
Example eval_05_parse : parses (session []) eval_05_source = Some (skeleton eval_05_tree). Proof. vm_compute. reflexivity. Qed.
Example eval_06_parse : parses (session []) eval_06_source = Some (skeleton eval_06_tree). Proof. vm_compute. reflexivity. Qed.
Example eval_07_parse : parses (session []) eval_07_source = Some (skeleton eval_07_tree). Proof. vm_compute. reflexivity. Qed.
Example eval_09_parse : parses (session []) eval_09_source = Some (skeleton eval_09_tree). Proof. vm_compute. reflexivity. Qed.
Example eval_10_parse : parses (session []) eval_10_source = Some (skeleton eval_10_tree). Proof. vm_compute. reflexivity. Qed.
Example eval_11_parse : parses (session []) eval_11_source = Some (skeleton eval_11_tree). Proof. vm_compute. reflexivity. Qed.
Example eval_12_parse : parses (session []) eval_12_source = Some (skeleton eval_12_tree). Proof. vm_compute. reflexivity. Qed.
Example eval_14_parse : parses (session []) eval_14_source = Some (skeleton eval_14_tree). Proof. vm_compute. reflexivity. Qed.

(** ** Python expressions for the tests: integers, names, comparison, + - and * *)
Inductive tok := TNum (z : Z) | TName (t : text) | TOp (t : text).
Definition ident_char (c : char) : bool := ps_LETTER c || is_digit c.
Fixpoint tokens (n : nat) (s : text) : list tok :=
  match n with
  | O => []
  | Datatypes.S m =>
      match s with
      | [] => []
      | c :: r =>
          if py_isspace c then tokens m r
          else if is_digit c then let k := span_len is_digit s in TNum (digits_val 10 0 (firstn k s)) :: tokens m (skipn k s)
          else if ps_LETTER c then let k := span_len ident_char s in TName (firstn k s) :: tokens m (skipn k s)
          else match r with
               | (61%N as d) :: r' => TOp [c; d] :: tokens m r'
               | _ => TOp [c] :: tokens m r
               end
      end
  end.
Definition tks (s : text) : list tok := tokens (Datatypes.S (List.length s)) s.
Section Arith.
Variable f : frame.
(** 0: comparison, 1: sums, 2: products, 3: atoms *)
Fixpoint arith (n : nat) (level : nat) (l : list tok) : option (Z * bool * list tok) :=
  match n with
  | O => None
  | Datatypes.S m =>
      match level with
      | 3%nat =>
          match l with
          | TNum z :: r => Some (z, false, r)
          | TName t :: r => match dict_get t f with Some v => match int_of v with Some z => Some (z, false, r) | None => None end | None => None end
          | TOp [40%N] :: r => match arith m 0 r with Some (z, b, TOp [41%N] :: r) => Some (z, b, r) | _ => None end
          | TOp [45%N] :: r => match arith m 3 r with Some (z, b, r) => Some (- z, false, r)%Z | None => None end
          | TOp [43%N] :: r => arith m 3 r
          | _ => None
          end
      | _ =>
          match arith m (Datatypes.S level) l with
          | Some (z, b, r) =>
              (fix more (k : nat) (z : Z) (b : bool) (r : list tok) : option (Z * bool * list tok) :=
                 match k with
                 | O => None
                 | Datatypes.S k =>
                     match r with
                     | TOp o :: r' =>
                         let op := match level with
                                   | 0%nat => if teqb o (lit "<") then Some (fun a b : Z => if (a <? b)%Z then 1 else 0)%Z
                                              else if teqb o (lit ">") then Some (fun a b : Z => if (b <? a)%Z then 1 else 0)%Z
                                              else if teqb o (lit "==") then Some (fun a b : Z => if (a =? b)%Z then 1 else 0)%Z
                                              else if teqb o (lit "!=") then Some (fun a b : Z => if (a =? b)%Z then 0 else 1)%Z
                                              else None
                                   | 1%nat => if teqb o (lit "+") then Some Z.add else if teqb o (lit "-") then Some Z.sub else None
                                   | _ => if teqb o (lit "*") then Some Z.mul else None
                                   end in
                         match op with
                         | Some op => match arith m (Datatypes.S level) r' with
                                      | Some (z2, _, r2) => more k (op z z2) (match level with O => true | _ => false end) r2
                                      | None => None
                                      end
                         | None => Some (z, b, r)
                         end
                     | _ => Some (z, b, r)
                     end
                 end) (Datatypes.S (List.length r)) z b r
          | None => None
          end
      end
  end.
End Arith.
Definition kit_names (t : text) : res (list text) :=
  Ok (fold_left (fun acc k => match k with TName x => if existsb (teqb x) acc then acc else acc ++ [x] | _ => acc end) (tks t) []).
Definition kit_infix (table : list (text * (frame -> option node))) (t : text) (f : frame) : res node :=
  match match dict_get (strip t) table with Some v => v f | None => None end with
  | Some v => Ok v
  | None => match arith f 40 0 (tks t) with
            | Some (z, b, []) => Ok (if b then NBool (negb (z =? 0)%Z) else NInt z)
            | _ => Err (Exn PyOther "kit")
            end
  end.
(** numbers of the module math, and what the tests need of it *)
Definition float_fun (table : list (list node * node)) (args : list node) : M node :=
  match find (fun p => py_eq (NList (fst p)) (NList args)) table with Some p => ret (snd p) | None => type_error end.
Definition fl (t : string) : node := NFloat (lit t).
Definition kit_math (name : text) : option bval :=
  if teqb name (lit "e") then Some (BConst (fl "2.718281828459045"))
  else if teqb name (lit "exp") then Some (BFun (float_fun [([fl "2.718281828459045"], fl "15.154262241479262")]))
  else if teqb name (lit "round") then Some (BFun (float_fun [([fl "15.154262241479262"; NInt 10], fl "15.1542622415"); ([fl "2.718281828459045"; NInt 11], fl "2.71828182846")]))
  else if teqb name (lit "sqrt") then Some (BFun (float_fun [([NInt 9], fl "3.0")]))
  else if teqb name (lit "pow") then Some (BFun (float_fun [([NInt 9; NInt 2], fl "81.0")]))
  else None.
Fixpoint unescape (s : text) : text :=
  match s with
  | 92%N :: 110%N :: r => 10%N :: unescape r
  | 92%N :: c :: r => c :: unescape r
  | c :: r => c :: unescape r
  | [] => []
  end.
Definition kit_unq (t : text) : text :=
  match t with
  | c :: r => if (c =? 34)%N || (c =? 39)%N then unescape (removelast r) else unescape t
  | [] => []
  end.
Definition kit_pctx (files : list (string * string)) (generated : string) : pctx :=
  Ctx false SkipNone (lit "main.yu") [] (disk_of files) kit_unq (fun _ => Ok tt)
      (fun code => Ok (lit generated)) (fun _ => []).
Definition kit_ec (files : list (string * string)) (generated : string)
  (table : list (text * (frame -> option node))) (scripts : list (text * bval)) : ectx :=
  ECtx (kit_pctx files generated) true false 0
       (builtin_with [] (fun _ name => dict_get name scripts) (lit "main.yu") (more_builtins (kit_pctx files generated) None kit_math))
       kit_names (kit_infix table) (fun t => t) (fun _ => 0%Z) (fun _ => []).
Definition kit_run (n : nat) (ec : ectx) (t : text) : res text :=
  match yuparse (e_parse ec) 5 (lit "main.yu") (kit_start t) with
  | Ok (l, s) =>
      match yueval ec (yuparse (e_parse ec) 5) n (NText l 0 0) [] s with
      | Ok (v, _, _) => match str_of v with Some t => Ok (replace_steady (reduce_emptiness true t)) | None => Err (Exn PyOther "not a text") end
      | Err e => Err e
      | Fuel => Fuel
      end
  | Err e => Err e
  | Fuel => Fuel
  end.
Example eval_01 : kit_run 300 (kit_ec [] "" [] []) eval_01_source = Ok eval_01_result. Proof. vm_compute. reflexivity. Qed.
Example eval_02 : kit_run 300 (kit_ec [] "" [] []) eval_02_source = Ok eval_02_result. Proof. vm_compute. reflexivity. Qed.
Example eval_03 : kit_run 300 (kit_ec [] "" [] []) eval_03_source = Ok eval_03_result. Proof. vm_compute. reflexivity. Qed.
Example eval_04 : kit_run 300 (kit_ec [] "" [] []) eval_04_source = Ok eval_04_result. Proof. vm_compute. reflexivity. Qed.
Example eval_05 : kit_run 300 (kit_ec [] "" [] []) eval_05_source = Ok eval_05_result. Proof. vm_compute. reflexivity. Qed.
Example eval_06 : kit_run 300 (kit_ec [] "" [] []) eval_06_source = Ok eval_06_result. Proof. vm_compute. reflexivity. Qed.
Example eval_07 : kit_run 300 (kit_ec [] "" [] []) eval_07_source = Ok eval_07_result. Proof. vm_compute. reflexivity. Qed.
Example eval_09 : kit_run 300 (kit_ec [] "" [] []) eval_09_source = Ok eval_09_result. Proof. vm_compute. reflexivity. Qed.
Example eval_10 : kit_run 300 (kit_ec [] "" [(lit "int(( b + c - 2 ) * 3.5 / a )", fun _ => Some (NInt 16))] []) eval_10_source = Ok eval_10_result. Proof. vm_compute. reflexivity. Qed.
Example eval_14 : kit_run 300 (kit_ec [] "" [] []) eval_14_source = Ok eval_14_result. Proof. vm_compute. reflexivity. Qed.

(** *** 08: imports of the standard library and of a generated module *)
Definition std_files : list (string * string) := [("stdlib.yu", stdlib_yu)]%string.
Definition std_table : list (text * (frame -> option node)) :=
  [(lit "sys.maxsize", fun _ => Some (NInt 9223372036854775807)); (lit "-sys.maxsize - 1", fun _ => Some (NInt (-9223372036854775808)))].
Definition reversed_string : bval := BFun (fun args => match args with [x] => match str_of x with Some t => ret (NRaw (rev t)) | None => type_error end | _ => type_error end).
Definition generated_08 : string := "($set uprevst \a.($upper ($reversed_string a)))"%string.
Example eval_08_parse : parses (kit_pctx std_files generated_08) eval_08_source = Some (skeleton eval_08_tree). Proof. vm_compute. reflexivity. Qed.
Example eval_08 : kit_run 300 (kit_ec std_files generated_08 std_table [(lit "reversed_string", reversed_string)]) eval_08_source = Ok eval_08_result. Proof. vm_compute. reflexivity. Qed.
(** *** 12: tables *)
Definition table_12 : list (text * (frame -> option node)) :=
  [(lit "val + ( d * ii )", fun f => match dict_get (lit "val") f, dict_get (lit "ii") f with
     | Some (NFloat _), Some (NInt 0) => Some (fl "0.2")
     | Some (NFloat _), Some (NInt _) => Some (fl "0.4")
     | _, _ => None end)].
Example eval_12 : kit_run 300 (kit_ec [] "" table_12 []) eval_12_source = Ok eval_12_result. Proof. vm_compute. reflexivity. Qed.
(** *** 13: let and unfold *)
Definition mul_13 : bval := BFun (fun args => match args with [NFloat _; NInt 10] => ret (fl "256.0") | _ => b_mul args end).
Definition table_13 := (lit "15.6 + x", fun _ : frame => Some (fl "25.6")) :: std_table.
Example eval_13_parse : parses (kit_pctx std_files "") eval_13_source = Some (skeleton eval_13_tree). Proof. vm_compute. reflexivity. Qed.
Example eval_13 : kit_run 300 (kit_ec std_files "" table_13 [(lit "mul", mul_13)]) eval_13_source = Ok eval_13_result. Proof. vm_compute. reflexivity. Qed.
(** *** 11: loops *)
Definition shown (v : node) : text := py_str (kit_ec [] "" [] []) v.
Fixpoint fill (t v : text) : text :=
  match t with
  | 37%N :: c :: r => v ++ r
  | c :: r => c :: fill r v
  | [] => []
  end.
Definition mod_11 : bval := BFun (fun args =>
  match args with
  | [v; x] => match str_of v with
              | Some t => match v with NInt _ => b_mod args | _ => ret (NRaw (fill t (shown x))) end
              | None => type_error end
  | _ => type_error end).
Definition scripts_11 : list (text * bval) :=
  [ (lit "mod", mod_11);
    (lit "sqrt", BFun (float_fun [([NInt 100], fl "10.0"); ([NInt 144], fl "12.0"); ([NInt 196], fl "14.0"); ([NInt 256], fl "16.0"); ([NInt 324], fl "18.0"); ([NInt 400], fl "20.0")]));
    (lit "cos", BFun (float_fun [([NInt 0], fl "1.0"); ([NInt 90], fl "-0.4480736161291701"); ([NInt 180], fl "-0.5984600690578582")]));
    (lit "round", BFun (float_fun [([fl "1.0"; NInt 12], fl "1.0"); ([fl "-0.4480736161291701"; NInt 12], fl "-0.448073616129"); ([fl "-0.5984600690578582"; NInt 12], fl "-0.598460069058")]));
    (lit "div", BFun (float_fun [([NInt 8; NInt 2], fl "4.0")])) ].
Definition table_11 : list (text * (frame -> option node)) :=
  [ (lit "'\t' + str(b)", fun f => match dict_get (lit "b") f with Some v => Some (NRaw (9%N :: shown v)) | None => None end);
    (lit """zero """"one """"two """"three "" == ""zero """"one """"two """"three """, fun _ => Some (NBool true));
    (lit "'%f %f %f' % tuple(R)", fun _ => Some (NRaw (lit "1.000000 -0.448074 -0.598460")));
    (lit "' '.join(L1)", fun f => match dict_get (lit "L1") f with Some (NList [a; b; c]) => Some (NRaw (shown a ++ lit " " ++ shown b ++ lit " " ++ shown c)) | _ => None end) ].
Example eval_11 : kit_run 300 (kit_ec [] "" table_11 scripts_11) eval_11_source = Ok eval_11_result. Proof. vm_compute. reflexivity. Qed.
