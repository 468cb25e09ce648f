(* PdlGroup.v - model of src/BELLA/pdl_group.py (randomly_pdl_guide): random guide-based
   ply-drop layouts of a group of plies. The random generator and the clock are inputs: a
   list of draws, one per iteration of the while loop, which ends when the time is over.
   Definitions only. *)
From Verif Require Import Base Uniq Divers Strip Spacing Format PdlTools Search.
Local Open Scope Z_scope.

(* ------------------------------------------------------------------ *)
(** * the draws *)

(** the results of random.sample in one iteration: the positions dropped with the largest
    number of drops (lines 126-138), then, for each smaller number of drops in decreasing
    order, the indices deleted (line 145) *)
Record draw := { first_sample : list nat; deletions : list (list nat) }.

(** random.sample(population, k) raises ValueError when k exceeds the population or is
    negative; otherwise [s] is the sample drawn *)
Definition sample (population k : Z) (s : list nat) : result (list nat) :=
  if (k <? 0) || (population <? k) then Err ValueError else Ok s.

(** lines 126-138: first position and number of the positions that may be dropped *)
Definition first_position (covering_top : bool) : nat := if covering_top then 1%nat else 0%nat.
Definition n_positions (covering_top covering_bottom : bool) (n_max : Z) : Z :=
  Z.max 0 (n_max - (if covering_top then 1 else 0) - (if covering_bottom then 1 else 0)).

(** line 147: [elem for ind_elem, elem in enumerate(l) if ind_elem not in to_del] *)
Definition without (to_del : list nat) (l : list nat) : list nat := np_delete to_del l.

(** lines 141-149. [us] are the numbers of drops still to do, in decreasing order; [cur]
    the dropped positions of the preceding (larger) number of drops, of size [size] *)
Fixpoint shrink (us : list Z) (size : Z) (cur : list nat) (dels : list (list nat)) : result (list (list nat)) :=
  match us with
  | [] => Ok []
  | u :: rest =>
    do d <- sample (zlen cur) (size - u) (hd [] dels);
    let l := without d cur in
    do r <- shrink rest u l (tl dels);
    Ok (l :: r)
  end.

(** lines 124-149: the dropped positions for each distinct number of drops, increasing *)
Definition positions (covering_top covering_bottom : bool) (n_max : Z) (uniques : list Z) (d : draw) : result (list (list nat)) :=
  match rev uniques with
  | [] => Err IndexError
  | u :: rest =>
    do s <- sample (n_positions covering_top covering_bottom n_max) u (first_sample d);
    do r <- shrink rest u s (deletions d);
    Ok (rev (s :: r))
  end.

(** lines 168-173: the column of the middle ply: -1 where the panel has a middle ply *)
Definition middle_column (middle_ply_indices : list Z) : list Z :=
  map (fun i => if i =? 0 then 0 else -1) (removelast middle_ply_indices).
Definition add_middle (middle_ply_indices : list Z) (pdl : list (list Z)) : result (list (list Z)) :=
  let col := middle_column middle_ply_indices in
  if Nat.eqb (length col) (length pdl) then Ok (map (fun p => fst p ++ [snd p]) (combine pdl col))
  else Err ValueError.                                          (* reshape *)

(** pdl_tools.py:38-48 ply_drops_at_each_boundaries: one line per panel *)
Definition at_each_boundary (uniques n_ply_drops : list Z) (pdl : list (list Z)) : result (list (list Z)) :=
  mapR (fun k => match index_of k uniques with Some i => row pdl i | None => Err KeyError end) n_ply_drops.

(** lines 124-181: one candidate layout; [middle] is None unless last_group and has_middle_ply *)
Definition candidate (covering_top covering_bottom : bool) (n_max : nat) (n_ply_drops : list Z) (middle : option (list Z)) (d : draw)
  : result (list (list Z)) :=
  let uniques := uniq n_ply_drops in
  do pos <- positions covering_top covering_bottom (Z.of_nat n_max) uniques d;
  do pdl <- format_ply_drops (map (map Z.of_nat) pos) n_max;
  do pdl <- (match middle with None => Ok pdl | Some m => add_middle m pdl end);
  at_each_boundary uniques n_ply_drops pdl.

(* ------------------------------------------------------------------ *)
(** * the loop *)

(** scipy.special.comb, exactly; 0 outside 0 <= k <= n *)
Fixpoint binom (n k : nat) : nat :=
  match n, k with
  | _, O => 1%nat
  | O, S _ => 0%nat
  | S n', S k' => (binom n' k' + binom n' k)%nat
  end.
Definition comb (n : nat) (k : Z) : nat := if k <? 0 then 0%nat else binom n (Z.to_nat k).

(** lines 98-104: number of layouts to produce *)
Definition n_layouts (n_max : nat) (uniques : list Z) (n_pdl_max : nat) : nat :=
  Nat.min (fold_right (fun u p => (comb n_max u * p)%nat) 1%nat uniques) n_pdl_max.

(** equality of integer matrices of the same shape (np.allclose; the entries are far below
    1e5, so that the tolerance is less than one) *)
Definition same_matrix (a b : list (list Z)) : bool :=
  if list_eq_dec (list_eq_dec Z.eq_dec) a b then true else false.

Record group_args := {
  a_top : bool; a_bottom : bool; a_n_max : nat; a_drops : list Z; a_middle : option (list Z);
  a_spacing : bool; a_min_drop : Z; a_strip : strip;
  a_before : option (list (list Z)); a_after : option (list (list Z));
  a_last_sym : bool                       (* last_group and constraints.sym *) }.

(** lines 189-210: np.flip of the candidate (without the middle column) for the last group
    of symmetric laminates, and the spacing penalty *)
Definition group_penalty (a : group_args) (pdl : list (list Z)) : result Q :=
  let after :=
    if a_last_sym a then
      Some (match a_middle a with
            | Some _ => map (fun r => rev (removelast r)) pdl
            | None => map (@rev Z) pdl
            end)
    else a_after a in
  calc_penalty_spacing (a_spacing a) (a_min_drop a) (a_strip a) (a_before a) (map Some pdl) after.

(** lines 118-262: the while loop *)
Fixpoint draw_loop (a : group_args) (n : nat) (st : store (list (list Z))) (draws : list draw) : result (store (list (list Z))) :=
  match draws with
  | [] => Ok st
  | d :: rest =>
    if (n <=? length (st_perfect st))%nat then Ok st else
    do pdl <- candidate (a_top a) (a_bottom a) (a_n_max a) (a_drops a) (a_middle a) d;
    do p <- group_penalty a pdl;
    do st' <- record same_matrix n st (p, format_ply_drops2 pdl);
    draw_loop a n st' rest
  end.

(** lines 265-298. [timeout]: the elapsed time at the end reached the limit. With
    n_pdl < n_pdl_max the filling of line 288 goes beyond the end of the array *)
Definition finish (timeout : bool) (n n_pdl_max : nat) (st : store (list (list Z))) : result (list (list (list Z))) :=
  if timeout then
    match st_perfect st, st_imperfect st with
    | [], [] => Err (Raised NoDivision)
    | _, _ =>
      if (n <? n_pdl_max)%nat then Err IndexError else
      do f <- fill [] (n - length (st_perfect st)) (map fst (st_imperfect st)) (map snd (st_imperfect st));
      Ok (st_perfect st ++ f)
    end
  else Ok (st_perfect st).

Definition randomly_pdl_guide (a : group_args) (n_pdl_max : nat) (draws : list draw) (timeout : bool) : result (list (list (list Z))) :=
  let n := n_layouts (a_n_max a) (uniq (a_drops a)) n_pdl_max in
  do st <- draw_loop a n empty_store draws;
  finish timeout n n_pdl_max st.
