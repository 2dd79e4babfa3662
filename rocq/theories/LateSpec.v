(** * Late-bound parameters: an expression as an argument *)
From Coq Require Import List NArith ZArith.
From Verif Require Import PyStr Ast Eval EnvSpec EvalSpec CoreSpec.
Import ListNotations.
Open Scope list_scope.

(** the names [ks] occur in the expression only as [&name], and in no infix expression *)
Fixpoint only_late (ec : ectx) (parse : text -> M (list node)) (ks : list text) (E : cexp) : Prop :=
  let all := fix all l := match l with [] => True | E :: r => only_late ec parse ks E /\ all r end in
  match E with
  | CParam r a => In (s_txt a) ks -> r = RLate
  | CList l | CCall _ l _ _ | CPick _ l _ _ | CText l _ _ => all l
  | CCond c a b => only_late ec parse ks c /\ only_late ec parse ks a /\ only_late ec parse ks b
  | CShow E _ _ => only_late ec parse ks E
  | CInfix ast _ _ => forall t ns, constant_text ec parse ast t -> e_names ec (lstrip t) = Ok ns -> Forall (fun n => ~ In n ks) ns
  | CValue _ | CLit _ _ => True
  end.
(** [\k1\k2..\p. (($p a b) ($p c d) ...)]: a function that calls its parameter once for every row *)
Definition for_rows (ks : list source) (p : source) (rows : list (list node)) : node :=
  NLambda [(ks, p, NNone)] (NList (map (fun row => NApply (NVar (RList []) p) row [] None 0) rows)).
(** a name that neither the call nor the function gives a meaning *)
Definition nowhere (p : text) (ks : list text) (e : env) (n : text) : Prop := n <> p /\ ~ In n ks /\ unknown e n.
(** a name with a value where the function is called *)
Definition given_there (p : text) (ks : list text) (e : env) (b : text * node) : Prop :=
  fst b <> p /\ ~ In (fst b) ks /\ data (snd b) /\ known e (fst b) (snd b).
