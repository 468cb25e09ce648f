(* Flexural.v - model of the out-of-plane refinement: src/RELAY/repair_flexural.py,
   repair_flexural_1.py, repair_flexural_2.py, repair_flexural_3.py and
   repair_flexural_tools.py.  Floats are exact rationals; cos_sin gives the four functions
   of an angle.  The number of evaluations of the objective is not modelled.
   Definitions only. *)
From Verif Require Import Base Constraints Guidelines Divide Search Membrane.
Local Open Scope Z_scope.

Definition qn (n : nat) : Q := inject_Z (Z.of_nat n).
Definition cube (x : Q) : Q := (x * (x * x))%Q.
(** repair_flexural_2.py 97-99: norm_pos_top^3 - norm_pos_bot^3 of ply i of n *)
Definition sec_mom (n i : nat) : Q := (cube (1 - (2 / qn n) * qn i) - cube (1 - (2 / qn n) * qn (i + 1)))%Q.
(** a sum whose partial sums are kept in lowest terms (the same number as [sumQ]) *)
Definition sumR (l : list Q) : Q := fold_right (fun x s => Qred (Qred x + s)) 0%Q l.

Section Flexural.
Variable c : cons.
Variable cos_sin : Z -> nat -> Q.
Variables coeffs target : vec.           (* out_of_plane_coeffs, lampam_target[8:12] *)

(** every looked-up angle is allowed *)
Definition known (l : list Z) : bool :=
  forallb (fun a => match ind_angle (set_of_angles c) a with Some _ => true | None => false end) l.

(** repair_flexural_2.py 69-104: out-of-plane lamination parameters. Of a symmetric
    laminate the first half and the middle ply are read; the matrix cos_sin of the code
    holds the functions of these plies, row by row. *)
Definition weighted (n : nat) (l : list Z) : vec :=
  fun k => sumR (map (fun i => sec_mom n i * cos_sin (nth i l 0%Z) k)%Q (seq 0 (length l))).
Definition lampamD (ss : list Z) : vec :=
  let n := length ss in
  if sym c then
    vadd (weighted n (firstn (n / 2) ss))
         (if Nat.odd n then vscale (sec_mom n (n / 2) / 2) (cos_sin (nth (n / 2) ss 0)) else fun _ => 0%Q)
  else vscale (1 # 2) (weighted n ss).
Definition objD (ss : list Z) : Q := Qred (objective coeffs target (lampamD ss)).

(** repair_flexural_2.py 39-67: the plies that may move, outermost first *)
Definition n_fixed : nat :=
  if dam_tol c then (if (Nat.eqb (dam_tol_rule c) 2 || Nat.eqb (dam_tol_rule c) 3)%bool then 2 else 1) else 0.
Definition ind_2 (n : nat) : list nat :=
  if sym c then seq n_fixed (n / 2 - n_fixed)
  else skipn (2 * n_fixed) (interleave (rev (seq (n / 2) (n - n / 2))) (seq 0 (n / 2))).

(** ply j moves to position i < j, or to position i > j; the plies between shift by one *)
Definition move (up : bool) (i j : nat) (ss : list Z) : list Z :=
  if up then firstn i ss ++ nth j ss 0 :: slice i j ss ++ skipn (j + 1) ss
  else firstn j ss ++ slice (j + 1) (i + 1) ss ++ nth j ss 0 :: skipn (i + 1) ss.

(** the tests of a move, repair_flexural_2.py 129-266. [continue] is [false]. *)
Definition diso_at (s : list Z) (i j : nat) : bool := is_diso (nth i s 0) (nth j s 0) (delta_angle c).
Definition contig_at (s : list Z) (lo hi : nat) : result bool := is_contig (slice lo (hi + 1) s) (n_contig c).

(** repair_flexural_2.py 129-158 (asymmetric, i > j) and 238-266 (asymmetric, i < j); the
    window of ply i first *)
Definition allowed_asym (up : bool) (i j : nat) (s : list Z) : result bool :=
  let lo := if up then i else j in let hi := if up then j else i in
  if (diso c && negb ((Nat.eqb lo 0 || diso_at s lo (lo - 1)) && diso_at s lo (lo + 1) && diso_at s hi (hi - 1) &&
                      (Nat.leb (length s - 1) hi || diso_at s hi (hi + 1))))%bool then Ok false
  else if contig c then
    do b <- contig_at s (i - n_contig c) (i + n_contig c);
    if b then contig_at s (j - n_contig c) (j + n_contig c) else Ok false
  else Ok true.

(** repair_flexural_2.py 176-236 (symmetric, i < j); [h] is the first half after the
    move, [mid] the middle ply *)
Definition allowed_sym (n i j : nat) (h : list Z) (mid : Z) : result bool :=
  let nc := n_contig c in
  let whole := if Nat.odd n then h ++ mid :: rev h else h ++ rev h in
  if (diso c && negb ((Nat.eqb i 0 || diso_at h i (i - 1)) && diso_at h i (i + 1) && diso_at h j (j - 1) &&
                      (negb (Nat.odd n && Nat.eqb j (n / 2 - 1)) || is_diso (nth j h 0) mid (delta_angle c)) &&
                      (Nat.leb (n / 2 - 1) j || diso_at h j (j + 1))))%bool then Ok false
  else if contig c then
    if Nat.leb (n / 2 - 1) (i + nc) then
      contig_at whole (i - nc) (n - (i - nc) - 1)
    else
      do b <- contig_at h (i - nc) (i + nc);
      if b then
        if Nat.leb (n / 2 - 1) (j + nc) then contig_at whole (j - nc) (n - (j - nc) - 1)
        else contig_at h (j - nc) (j + nc)
      else Ok false
  else Ok true.

Definition allowed (checked up : bool) (i j : nat) (ss : list Z) : result bool :=
  if negb checked then Ok true
  else let s := move up i j ss in
    if sym c then allowed_sym (length ss) i j (firstn (length ss / 2) s) (nth (length ss / 2) ss 0)
    else allowed_asym up i j s.

(** the objectives of the candidates: 1e10 when a move is not allowed *)
Fixpoint tests (checked up : bool) (i : nat) (js : list nat) (ss : list Z) : result (list Q) :=
  match js with
  | [] => Ok []
  | j :: t =>
    do b <- allowed checked up i j ss;
    do r <- tests checked up i t ss;
    Ok ((if b then objD (move up i j ss) else e10) :: r)
  end.

(** repair_flexural_2.py 117-310 and repair_flexural_3.py 100-180: one pass over the plies.
    [checked], the number of candidates and the size of the table differ: n_D2 - 1 and
    n_D2 - 1 with the tests, n_D2 + 1 and the number of remaining plies without. min of an
    empty array raises ValueError. *)
Definition cand_count (checked : bool) (n_D2 : nat) : nat := if checked then n_D2 - 1 else n_D2 + 1.
Definition table_size (checked : bool) (n_D2 rest : nat) : nat := if checked then n_D2 - 1 else rest.

Fixpoint shift_loop (checked : bool) (n_D2 : nat) (index : nat) (inds : list nat) (best : Q) (ss : list Z) : result (list Z) :=
  match inds with
  | [] | [_] => Ok ss
  | i :: rest =>
    let up := (sym c || Nat.odd index)%bool in
    do vals <- tests checked up i (firstn (cand_count checked n_D2) rest) ss;
    let tab := vals ++ repeat e10 (table_size checked n_D2 (length rest) - length vals) in
    do k <- argmin tab;
    if Qltb (nth k tab 0 + em20)%Q best then
      match nth_error rest k with
      | None => Err IndexError
      | Some j => shift_loop checked n_D2 (S index) rest (nth k tab 0%Q) (move up i j ss)
      end
    else shift_loop checked n_D2 (S index) rest best ss
  end.

(** repair_flexural_2.py 306-308: the lower half mirrors the upper half *)
Definition mirror (ss : list Z) : list Z :=
  let n := length ss in
  if sym c then firstn (n - n / 2) ss ++ rev (firstn (n / 2) ss) else ss.

(** KeyError for an angle that is not allowed *)
Definition repair_flexural_shift (checked : bool) (n_D2 : nat) (ss : list Z) : result (list Z) :=
  if known (if sym c then firstn (length ss - length ss / 2) ss else ss) then
    do s <- shift_loop checked n_D2 0 (ind_2 (length ss)) (objD ss) ss; Ok (mirror s)
  else Err KeyError.
Definition repair_flexural_2 := repair_flexural_shift true.
Definition repair_flexural_3 := repair_flexural_shift false.

(* ------------------------------------------------------------------ *)
(** ** Blocks of plies, repair_flexural_tools.py 236-424 *)
Record block := {
  b_id : nat; b_angle : Z; b_size : nat; b_first : nat;
  b_near : list Z;                  (* neighbour_angles *)
  b_dist : Z }.                     (* distance_middle times n_plies *)

(** lines 246-257 *)
Definition block_dist (n first size : nat) : Z :=
  let d := fun p => Z.abs (2 * p - Z.of_nat n) in
  let f := Z.of_nat first in let l := f + Z.of_nat size - 1 in
  Z.max (d (if 2 * f <? Z.of_nat n then f else Z.of_nat n - f - 1))
        (d (if 2 * l <? Z.of_nat n then l else Z.of_nat n - l - 1)).
(** lines 259-263 *)
Definition near_of (before after : option Z) : list Z :=
  match before, after with
  | Some b, Some a => if a =? b then [b] else [b; a]
  | Some b, None => [b]
  | None, Some a => [a]
  | None, None => []
  end.
Definition new_block (id n first size : nat) (angle : Z) (before after : option Z) : block :=
  {| b_id := id; b_angle := angle; b_size := size; b_first := first; b_near := near_of before after; b_dist := block_dist n first size |}.

(** lines 267-293 calc_possible_angles; the list is a function of the current angle and
    neighbour angles of the block *)
Definition possible (b : block) (a : Z) : bool :=
  let ok := fun x => (negb (diso c) || is_diso a x (delta_angle c))%bool in
  (memb a (set_of_angles c) && negb (a =? b_angle b) && negb (memb a (b_near b)) &&
   match b_near b with [x] => ok x | [x; y] => ok x && ok y | _ => false end)%bool.

(** lines 345-357: the ply from which the blocks are read *)
Fixpoint last_other (ss : list Z) (mid : Z) (k : nat) : result nat :=
  match k with
  | O => Err IndexError
  | S k => if nth k ss 0 =? mid then last_other ss mid k else Ok k
  end.
Definition block_start (ss : list Z) : result nat :=
  let n := length ss in
  if sym c then
    if Nat.odd n then last_other ss (nth (n / 2) ss 0) (n / 2)
    else if Nat.eqb n 0 then Err IndexError else Ok (n / 2 - 1)%nat
  else if Nat.eqb n 0 then Err IndexError else Ok (n - 1)%nat.

(** lines 358-417; the inner block of an even symmetric or of an asymmetric laminate has one
    neighbour *)
Definition one_sided : bool -> nat -> bool := fun odd_sym id => (Nat.eqb id 0 && negb odd_sym)%bool.
Fixpoint read_blocks (ss : list Z) (odd_sym : bool) (id size start : nat) : list block :=
  let n := length ss in
  let after := if one_sided odd_sym id then None else Some (nth (start + size) ss 0) in
  match start with
  | O => [new_block id n 0 size (nth 0 ss 0) (if one_sided odd_sym id then Some (last ss 0) else None) after]
  | S p =>
    if nth start ss 0 =? nth p ss 0 then read_blocks ss odd_sym id (S size) p
    else new_block id n start size (nth start ss 0) (Some (nth p ss 0)) after :: read_blocks ss odd_sym (S id) 1 p
  end.
(** line 420: stable sort, most distant first *)
Fixpoint insert_block (b : block) (l : list block) : list block :=
  match l with
  | [] => [b]
  | x :: t => if b_dist x <? b_dist b then b :: l else x :: insert_block b t
  end.
Definition sort_blocks (l : list block) : list block := fold_left (fun acc b => insert_block b acc) l [].
Definition find_list_blocks (ss : list Z) : result (list block) :=
  do s <- block_start ss;
  Ok (sort_blocks (read_blocks ss (sym c && Nat.odd (length ss))%bool 0 1 s)).

(** lines 295-322 update_possible_angles: the neighbour angles of a block and of the blocks
    next to it *)
Definition next_to (a b : nat) : bool := (Nat.eqb a (b + 1) || Nat.eqb (a + 1) b)%bool.
Definition angles_around (l : list block) (id : nat) : list Z :=
  map b_angle (filter (fun b => next_to (b_id b) id) l).
Definition set_near (b : block) (v : list Z) : block :=
  {| b_id := b_id b; b_angle := b_angle b; b_size := b_size b; b_first := b_first b; b_near := v; b_dist := b_dist b |}.
Definition update_near (midply : option Z) (id : nat) (l : list block) : list block :=
  map (fun b =>
    if Nat.eqb (b_id b) id then
      set_near b (angles_around l id ++ (if Nat.eqb id 0 then match midply with Some m => [m] | None => [] end else []))
    else if next_to (b_id b) id then set_near b (angles_around l (b_id b))
    else b) l.

(* ------------------------------------------------------------------ *)
(** ** repair_flexural_1.py *)
(** lines 53-70 *)
Definition status_dam_tol (n p : nat) : bool := (Nat.ltb p n_fixed || Nat.ltb (n - n_fixed - 1) p && Nat.leb n_fixed n)%bool.

(** repair_flexural_tools.py 43-147: the change of the lamination parameters when
    [size] plies at [angle1] from position p1 on and [size] plies at [angle2] from position
    p2 on are exchanged, as computed: the position of a ply counts from 1 there, and
    repair_flexural_1 passes a position that counts from 0 *)
Definition z2 (n : nat) (pos : Z) : Q := (cube (inject_Z pos - qn n / 2) - cube (inject_Z (pos - 1) - qn n / 2))%Q.
Definition z2_sum (n first size : nat) : Q := sumQ (map (fun k => z2 n (Z.of_nat (first + k))) (seq 0 size)).
Definition swap_delta (n : nat) (a1 a2 : Z) (p1 p2 size : nat) : vec :=
  fun k => ((if sym c then 8 else 4) / cube (qn n) *
    ((z2_sum n p2 size - z2_sum n p1 size) * cos_sin a1 k + (z2_sum n p1 size - z2_sum n p2 size) * cos_sin a2 k))%Q.

Definition fill_range (first size : nat) (a : Z) (ss : list Z) : list Z :=
  firstn first ss ++ repeat a size ++ skipn (first + size) ss.
(** lines 127-140 *)
Definition swap_blocks (b1 b2 : block) (ss : list Z) : list Z :=
  let n := length ss in
  let s := fill_range (b_first b2) (b_size b2) (b_angle b1) (fill_range (b_first b1) (b_size b1) (b_angle b2) ss) in
  if sym c then
    fill_range (n - b_first b2 - b_size b2) (b_size b2) (b_angle b1)
      (fill_range (n - b_first b1 - b_size b1) (b_size b1) (b_angle b2) s)
  else s.
Definition set_angle (b : block) (a : Z) : block :=
  {| b_id := b_id b; b_angle := a; b_size := b_size b; b_first := b_first b; b_near := b_near b; b_dist := b_dist b |}.

Definition no_block : block := {| b_id := 0; b_angle := 0; b_size := 0; b_first := 0; b_near := []; b_dist := 0 |}.
(** lines 86-96; list_blocks[index_block_2] counts from the beginning of the list *)
Definition possible_swaps (n i1 : nat) (l : list block) : list nat :=
  let b1 := nth i1 l no_block in
  map (fun k => (i1 + k + 1)%nat)
    (filter (fun k => let b2 := nth (i1 + 1 + k) l no_block in
        (negb (status_dam_tol n (b_first (nth k l no_block))) && Nat.eqb (b_size b1) (b_size b2) &&
         possible b1 (b_angle b2) && possible b2 (b_angle b1))%bool)
      (seq 0 (length l - i1 - 1))).

(** lines 80-160 *)
Fixpoint swap_loop (midply : option Z) (is : list nat) (l : list block) (lp : vec) (obj : Q) (ss : list Z) : result (list Z) :=
  match is with
  | [] => Ok ss
  | i1 :: is =>
    let n := length ss in
    let b1 := nth i1 l no_block in
    if status_dam_tol n (b_first b1) then swap_loop midply is l lp obj ss
    else match possible_swaps n i1 l with
    | [] => swap_loop midply is l lp obj ss
    | js =>
      let news := map (fun i2 => let b2 := nth i2 l no_block in
          vadd lp (swap_delta n (b_angle b1) (b_angle b2) (b_first b1) (b_first b2) (b_size b1))) js in
      let objs := map (objective coeffs target) news in
      do k <- argmin objs;
      if Qltb (nth k objs 0 + em20)%Q obj then
        let i2 := nth k js 0%nat in let b2 := nth i2 l no_block in
        let l' := update_near midply (b_id b2) (update_near midply (b_id b1)
                    (upd i2 (set_angle b2 (b_angle b1)) (upd i1 (set_angle b1 (b_angle b2)) l))) in
        let ss' := swap_blocks b1 b2 ss in
        let obj' := nth k objs 0%Q in
        if Qltb obj' em10 then Ok ss' else swap_loop midply is l' (nth k news lp) obj' ss'
      else if Qltb obj em10 then Ok ss else swap_loop midply is l lp obj ss
    end
  end.

(** [calc_lampamD] of the missing package src/CLA is taken to be [lampamD] *)
Definition repair_flexural_1 (ss : list Z) : result (list Z) :=
  if known (if sym c then firstn (length ss - length ss / 2) ss else ss) then
    do l <- find_list_blocks ss;
    let midply := if (sym c && Nat.odd (length ss))%bool then Some (nth (length ss / 2) ss 0) else None in
    swap_loop midply (seq 0 (length l - 1)) l (lampamD ss) (objD ss) ss
  else Err KeyError.

(* ------------------------------------------------------------------ *)
(** ** repair_flexural.py 28-124; [multi]: a multi-panel structure is given; without one the
    laminate is tested between the two steps *)
Definition no_coeffs_D : bool := no_coeffs coeffs.
Definition between (multi : bool) (ss : list Z) : result unit :=
  if multi then Ok tt
  else
    do _ <- (if diso c then check (is_diso_ss ss (delta_angle c) (dam_tol c) (Some (dam_tol_rule c)) None) DisoViolated else Ok tt);
    if contig c then check (is_contig ss (n_contig c)) ContigViolated else Ok tt.
Fixpoint flexural_loop (multi : bool) (n_D2 n_D3 : nat) (ss : list Z) : result (list Z) :=
  match n_D3 with
  | O => Ok ss
  | S k =>
    do s <- (if (diso c || contig c)%bool then
               do s1 <- repair_flexural_1 ss; do _ <- between multi s1; repair_flexural_2 n_D2 s1
             else repair_flexural_3 n_D2 ss);
    flexural_loop multi n_D2 k s
  end.
Definition repair_flexural (multi switch : bool) (n_D2 n_D3 : nat) (ss : list Z) : result (list Z) :=
  if (switch && negb no_coeffs_D)%bool then flexural_loop multi n_D2 n_D3 ss else Ok ss.
End Flexural.
