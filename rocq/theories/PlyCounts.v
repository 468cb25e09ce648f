(* PlyCounts.v - model of the ply counts of src/guidelines/ten_percent_rule.py (51-71
   calc_ply_counts, 263-288 calc_penalty_10_pc of several laminates, 291-330
   calc_n_plies_per_angle) and of their use at lines 435 and 453-459 of
   src/BELLA/optimiser_with_one_pdl.py. The counts of calc_ply_counts are half-precision
   numbers (dtype float16) and are rounded here as they are there; the other floats are exact
   rationals. Definitions only. *)
From Verif Require Import Base Constraints Guidelines Divers.
Local Open Scope Z_scope.

(** a non-negative integer below 65520 rounded to half precision (11 significant bits, to the
    nearest, ties to even) *)
Definition half (n : Z) : Z :=
  let q := 2 ^ Z.max 0 (Z.log2 n - 10) in
  let m := n / q in let r := n mod q in
  (if (2 * r <? q) || ((2 * r =? q) && Z.even m) then m else m + 1) * q.

(** constraints.ind_angles_dict[angle] *)
Definition index_or_key (c : cons) (a : Z) : result nat :=
  match ind_angle (set_of_angles c) a with Some i => Ok i | None => Err KeyError end.

(** lines 66-70, one panel: n_plies_per_angles[ind_panel][index] += 1 *)
Fixpoint tally (c : cons) (stack : list Z) (n : list Z) : result (list Z) :=
  match stack with
  | [] => Ok n
  | a :: t => do i <- index_or_key c a; do x <- get n (Z.of_nat i); tally c t (upd i (half (x + 1)) n)
  end.
(** lines 51-71 *)
Definition calc_ply_counts (c : cons) (n_panels : nat) (stacks : list (list Z)) : result (list (list Z)) :=
  mapM (fun i => do s <- get stacks (Z.of_nat i); tally c s (repeat 0 (length (set_of_angles c)))) (seq 0 n_panels).

(** lines 263-281, one row *)
Definition row_penalty (c : cons) (pc : list Z) : result Q :=
  let q := map inject_Z pc in let tot := sumQ q in
  if Qeq_bool tot 0 then Ok 0%Q else
  do n0 <- getQ q c 0; do n45 <- getQ q c 45; do n90 <- getQ q c 90; do n135 <- getQ q c (-45);
  Ok (pen10 c (n0 / tot) (n45 / tot) (n90 / tot) (n135 / tot)).
(** calc_penalty_10_pc of a matrix, cummul_areas = 1 *)
Definition calc_penalty_10_rows (c : cons) (counts : list (list Z)) : result (list Q) :=
  if Qltb 0 (percent_tot c) then mapM (row_penalty c) counts else Ok (map (fun _ => 0%Q) counts).

(** optimiser_with_one_pdl.py 435 and 453-459: the penalties of the repaired design for the 10%
    rule; [distance] is calc_distance_Abdalla *)
Definition penalty_10 (c : cons) (distance : list Q -> Q) (n_panels : nat) (ss : list (list Z)) (lps : list (list Q)) : result (list Q) :=
  do counts <- calc_ply_counts c n_panels ss;
  if (rule_10_percent c && rule_10_Abdalla c)%bool then Ok (map distance lps) else calc_penalty_10_rows c counts.
(** the same for one laminate *)
Definition penalty_10_of (c : cons) (distance : list Q -> Q) (s : list Z) (lp : list Q) : result Q :=
  do pc <- tally c s (repeat 0 (length (set_of_angles c)));
  if (rule_10_percent c && rule_10_Abdalla c)%bool then Ok (distance lp)
  else if Qltb 0 (percent_tot c) then row_penalty c pc else Ok 0%Q.

(** lines 291-330, one row of [angle] (and of [angle2]); the entries of the vector of the initial
    counts are floats or integers ([integers]): an integer entry is truncated toward zero *)
Fixpoint add_plies (c : cons) (plies : list Z) (n : list Q) : result (list Q) :=
  match plies with
  | [] => Ok n
  | a :: t => do i <- index_or_key c a; do x <- get n (Z.of_nat i); add_plies c t (upd i (x + 1)%Q n)
  end.
Definition truncate (x : Q) : Q := inject_Z (Z.quot (Qnum x) (Zpos (Qden x))).
Definition plies_per_angle_row (c : cons) (integers : bool) (ini : list Q) (middle_ply : Z) (angle : list Z) (angle2 : option (list Z)) : result (list Q) :=
  do n <- add_plies c angle ini;
  do n <- (match angle2 with Some l => add_plies c l n | None => Ok n end);
  if middle_ply =? 0 then Ok n else
  do a <- get angle (-1);
  do i <- index_or_key c a; do x <- get n (Z.of_nat i);
  let y := (x - (1 # 2))%Q in
  Ok (upd i (if integers then truncate y else y) n).
(** [angle] and [angle2] are lists of rows; the rows are computed from the last to the first *)
Definition calc_n_plies_per_angle (c : cons) (integers : bool) (ini : list Q) (middle_ply : Z) (angle : list (list Z)) (angle2 : option (list (list Z))) : result (list (list Q)) :=
  do r <- mapM (fun i =>
    do a <- get angle (Z.of_nat i);
    do b <- (match angle2 with None => Ok None | Some m => do r <- get m (Z.of_nat i); Ok (Some r) end);
    plies_per_angle_row c integers ini middle_ply a b) (rev (seq 0 (length angle)));
  Ok (rev r).
