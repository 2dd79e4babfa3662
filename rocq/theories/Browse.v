(** * Browsing from the generated text to its origin

    Model of the navigation of the editor plug-in,
    /repo/sublime_text/Data/Packages/yupp/yupp.py 209-275.  It reads the tables that
    /repo/pp/yup.py 413-421 saves beside the output.  Simplified: every file of the table is
    found by search_file; the dictionary of pending jumps is the list of jumps, first jump
    first. *)
From Coq Require Import List NArith ZArith Bool.
From Verif Require Import PyStr Ast Final.
Import ListNotations.
Open Scope Z_scope.

(** yupp.py 214-216 (_bisect of the plug-in, 27-40, is that of yugen.py) *)
Definition delta_at (offset : otab) (pos : Z) : Z :=
  match bisect offset pos with O => 0 | S k => snd (nth k offset (0, 0)) end.

Definition mark_pos (e : Z * nat * Z) : Z := fst (fst e).
(** yupp.py 250-265: earlier entries at the same position [found]; [done]: the later ones *)
Fixpoint earlier (found : Z) (before : list (Z * nat * Z)) (done : list (nat * Z)) : list (nat * Z) :=
  match before with
  | [] => done
  | (p, f, q) :: r => if p =? found then earlier found r ((f, Z.abs q) :: done) else done
  end.
(** yupp.py 228-269: the jumps from the position [pos] of the output *)
Definition jumps (browse : btab) (offset : otab) (pos : Z) : list (nat * Z) :=
  let at_ := pos + delta_at offset pos in
  match bisect (map (fun e => (mark_pos e, 0)) browse) at_ with
  | O => []
  | S i =>
      let '(found, f, q) := nth i browse (0, O, 0) in
      let before := rev (firstn i browse) in
      let single := match before with (p, _, _) :: _ => negb (p =? found) | [] => false end in
      let q' := if single && (0 <? q) then q + (at_ - found) else q in
      earlier found before [(f, Z.abs q')]
  end.
