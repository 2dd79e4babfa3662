(** * Indentation, offset tables and final text processing

    Models /repo/pp/yugen.py 340-366 (PLAIN), 2367-2489 (_bisect, _merge_offset,
    TRIM), 2901-2960 (RESULT), 3822-3896 (reduce_emptiness, replace_steady). *)

From Coq Require Import List NArith ZArith Bool.
From Verif Require Import PyStr Ast Lex.
Import ListNotations.
Open Scope N_scope.

(** ** textwrap.dedent (CPython 3.8-3.13, Lib/textwrap.py)
    Lines are separated by line feeds only; a line of spaces and tabs only
    becomes empty; the longest common prefix of the indents of the other lines
    is removed. *)
Fixpoint split_lf (s : text) : list text :=
  match s with
  | [] => [[]]
  | c :: r => if c =? 10 then [] :: split_lf r
              else match split_lf r with
                   | [] => [[c]]            (* impossible *)
                   | l :: ls => (c :: l) :: ls
                   end
  end.
Definition leading (ln : text) : text := firstn (span_len ps_SPACE ln) ln.
Definition is_blank (ln : text) : bool := forallb ps_SPACE ln.
Fixpoint common_prefix (a b : text) : text :=
  match a, b with
  | x :: a', y :: b' => if x =? y then x :: common_prefix a' b' else []
  | _, _ => []
  end.
Fixpoint margin_of (lines : list text) : option text :=
  match lines with
  | [] => None
  | ln :: r => if is_blank ln then margin_of r
               else match margin_of r with
                    | None => Some (leading ln)
                    | Some m => Some (common_prefix (leading ln) m)
                    end
  end.
Definition dedent (s : text) : text :=
  let lines := map (fun ln => if is_blank ln then [] else ln) (split_lf s) in
  match margin_of lines with
  | None => join [10] lines
  | Some m => join [10] (map (fun ln => if startswith m ln then skipn (length m) ln else ln) lines)
  end.

(** ** Offset tables
    An offset table is a list of (pos, delta): from position [pos] of the final
    text on, position + delta is the position in the text before processing. *)
Definition otab := list (Z * Z).

(** _bisect; yugen.py 2367-2378.  Fuel: the length of the table. *)
Fixpoint bisect_loop (n : nat) (a : otab) (x : Z) (lo hi : nat) : nat :=
  match n with
  | O => lo
  | S m =>
      if Nat.ltb lo hi then
        let mid := Nat.div2 (lo + hi) in
        if (x <? fst (nth mid a (0, 0)%Z))%Z
        then bisect_loop m a x lo mid
        else bisect_loop m a x (S mid) hi
      else lo
  end.
Definition bisect (a : otab) (x : Z) : nat := bisect_loop (S (length a)) a x 0 (length a).

(** the inner [for i in range( _inx, inx )] of _merge_offset; yugen.py 2388-2392 *)
Fixpoint merge_inner (p_offset : otab) (i : nat) (cnt : nat) (d0 pos : Z) : otab :=
  match cnt with
  | O => []
  | S c =>
      let '(p, d) := nth i p_offset (0, 0)%Z in
      (if (p - d0 <? pos)%Z then [(p - d0, d + d0)%Z] else [])
      ++ merge_inner p_offset (S i) c d0 pos
  end.
(** _merge_offset; yugen.py 2381-2400 *)
Fixpoint merge_loop (p_offset offset : otab) (d0 : Z) (inx0 : nat) : otab :=
  match offset with
  | [] => map (fun e => (fst e - d0, snd e + d0)%Z) (skipn inx0 p_offset)
  | (pos, delta) :: rest =>
      let inx := bisect p_offset (pos + delta) in
      let p_delta := match inx with O => 0%Z | S k => snd (nth k p_offset (0, 0)%Z) end in
      merge_inner p_offset inx0 (inx - inx0) d0 pos
      ++ (pos, (p_delta + delta)%Z)
      :: merge_loop p_offset rest delta (Nat.max inx0 inx)
  end.
Definition merge_offset (p_offset offset : otab) : otab := merge_loop p_offset offset 0 0.

(** ** RESULT; yugen.py 2901-2960 *)
Definition btab := list (Z * nat * Z).
Record result := Res { r_txt : text; r_browse : btab; r_offset : otab }.
Definition res_of (t : text) : result := Res t [] [].

(** RESULT.add_text; yugen.py 2943-2957.  The in-place extension of [self.browse]
    and [self.offset] is not visible: callers use the returned object only. *)
Definition add_text (a b : result) : result :=
  match r_txt b with
  | [] => a
  | _ =>
      let l := Z.of_nat (length (r_txt a)) in
      let base := match r_offset a with [] => 0%Z | _ => snd (last (r_offset a) (0, 0)%Z) end in
      Res (r_txt a ++ r_txt b)
          (r_browse a ++ map (fun '(p, f, q) => (p + (l + base), f, q)%Z) (r_browse b))
          (r_offset a ++ map (fun '(p, v) => (p + l, v + base)%Z) (r_offset b))
  end.
(** [reduce( RESULT.add_text, l )], 2982 *)
Definition concat_results (l : list result) : result :=
  match l with [] => res_of [] | r :: rs => fold_left add_text rs r end.

(** ** TRIM; yugen.py 2403-2489; [trim_on] is config.pp_trim_app_indent *)
Definition trim (trim_on : bool) (ind plain : text) : text :=
  match plain with
  | [] => []
  | _ => if trim_on then join ind (splitlines_keep (dedent plain)) else plain
  end.

(** [rest == EOL] after ps_space *)
Definition line_empty (ln : text) : bool :=
  teqb (skipn (span_len ps_SPACE ln) ln) [10].

(** the search for the shared indent; yugen.py 2426-2453 *)
Fixpoint cutting_loop (lines : list text) (cutting : option text) : option text :=
  match lines with
  | [] => cutting
  | ln :: r =>
      if line_empty ln then cutting_loop r cutting
      else match cutting with
           | None => cutting_loop r None
           | Some c =>
               match leading ln with
               | [] => cutting_loop r None
               | ind =>
                   cutting_loop r
                     (match c with
                      | [] => Some ind
                      | _ => if startswith c ind then Some c
                             else if startswith ind c then Some ind
                             else None
                      end)
               end
           end
  end.
Definition cutting (lines : list text) : option text := cutting_loop lines (Some []).

(** the new text; yugen.py 2456-2459.  [first] is [i == 0]. *)
Fixpoint trim_lines (c : nat) (ind : text) (first : bool) (lines : list text) : list text :=
  match lines with
  | [] => []
  | ln :: r =>
      (if line_empty ln then ln else (if first then [] else ind) ++ skipn c ln)
      :: trim_lines c ind false r
  end.

(** [for _ in range( -delta )]; yugen.py 2474-2478 *)
Fixpoint add_steps (k : nat) (pos total : Z) : otab :=
  match k with
  | O => []
  | S m => (pos, (total - 1)%Z) :: add_steps m (pos + 1) (total - 1)
  end.
(** the offsets; yugen.py 2461-2480 *)
Fixpoint trim_offsets (c d : Z) (first : bool) (pos total : Z) (lines : list text) : otab :=
  match lines with
  | [] => []
  | ln :: r =>
      let len := Z.of_nat (length ln) in
      if line_empty ln then trim_offsets c d false (pos + len) total r
      else
        let delta := if first then c else d in
        if (0 <? delta)%Z then
          (pos, total + delta)%Z :: trim_offsets c d false (pos - delta + len) (total + delta) r
        else
          let k := Z.to_nat (- delta) in
          add_steps k pos total
          ++ trim_offsets c d false (pos + Z.of_nat k + len) (total - Z.of_nat k) r
  end.

Definition trim_with_browse (trim_on : bool) (ind : text) (plain : result) : result :=
  match r_txt plain with
  | [] => plain
  | _ =>
      if negb trim_on then plain
      else
        let lines := splitlines_keep (r_txt plain) in
        let c := match cutting lines with Some t => length t | None => O end in
        let offset := trim_offsets (Z.of_nat c) (Z.of_nat c - Z.of_nat (length ind)) true 0 0 lines in
        Res (concat (trim_lines c ind true lines)) (r_browse plain)
            (match r_offset plain with [] => offset | _ => merge_offset (r_offset plain) offset end)
  end.

(** ** PLAIN; yugen.py 340-366 *)
Definition get_trimmed (trim_on trim : bool) (s : source) : text :=
  if trim_on && trim then lstrip (s_txt s) else s_txt s.
Definition get_trimmed_with_browse (trim_on trim : bool) (s : source) : source :=
  if trim_on && trim then sfrom (length (s_txt s) - length (lstrip (s_txt s))) s else s.

(** PLAIN.add_indent on a node; other nodes are left alone; yugen.py 358-366, 3166-3168 *)
Definition add_indent (ind : text) (x : node) : node :=
  match x with
  | NPlain s IndNone _ => x
  | NPlain s i tr =>
      let ln := splitlines_keep (s_txt s)
                ++ (if ps_EOL (last (s_txt s) 0) then [[]] else []) in
      NPlain (raw (join ind ln))
             (match i with IndStr t => IndStr (ind ++ t) | _ => i end) tr
  | _ => x
  end.

(** ** Final text processing *)

(** reduce_emptiness on RESULT; yugen.py 3831-3876 *)
Fixpoint reduce_lines (prev_empty : bool) (lines : list text) : list text :=
  match lines with
  | [] => []
  | ln :: r =>
      if line_empty ln then
        if prev_empty then reduce_lines true r else ln :: reduce_lines true r
      else ln :: reduce_lines false r
  end.
(** [offset[ -1 ] = (pos, total)] if the previous entry is at the same position *)
Definition put_last (offset : otab) (e : Z * Z) : otab := removelast offset ++ [e].
Fixpoint reduce_offsets (prev_empty : bool) (pos pos0 total : Z) (offset : otab) (lines : list text) : otab :=
  match lines with
  | [] => offset
  | ln :: r =>
      let len := Z.of_nat (length ln) in
      if line_empty ln then
        if prev_empty then
          let total := (total + len)%Z in
          if (pos =? pos0)%Z
          then reduce_offsets true pos pos0 total (put_last offset (pos, total)) r
          else reduce_offsets true pos pos total (offset ++ [(pos, total)]) r
        else reduce_offsets true (pos + len) pos0 total offset r
      else reduce_offsets false (pos + len) pos0 total offset r
  end.
Definition reduce_emptiness_browse (on : bool) (r : result) : result :=
  if negb on then r
  else
    let lines := splitlines_keep (r_txt r) in
    let offset := reduce_offsets false 0 0 0 [] lines in
    Res (concat (reduce_lines false lines)) (r_browse r)
        (match r_offset r with [] => offset | _ => merge_offset (r_offset r) offset end).

(** reduce_emptiness on plain text; yugen.py 3878-3888 *)
Definition ln_blank (ln : text) : bool := match strip ln with [] => true | _ => false end.
Fixpoint filter_empty (prev : bool) (lines : list text) : list text :=
  match lines with
  | [] => []
  | ln :: r =>
      let e := ln_blank ln in
      if negb prev || negb e then ln :: filter_empty e r else filter_empty e r
  end.
Definition reduce_emptiness (on : bool) (t : text) : text :=
  if negb on then t
  else join [10] (map rstrip (filter_empty false (splitlines t))) ++ [10].

(** STEADY_SPACE, STEADY_TAB; yugen.py 2653-2654 *)
Definition steady_space : char := 254.
Definition steady_tab : char := 255.
(** replace_steady; yugen.py 3891-3896 *)
Definition replace_steady (t : text) : text :=
  replace [steady_space] [c_space] (replace [steady_tab] [c_tab] t).
Definition replace_steady_browse (r : result) : result :=
  Res (replace_steady (r_txt r)) (r_browse r) (r_offset r).
