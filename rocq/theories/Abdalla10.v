(* Abdalla10.v - model of the repair for the 10% rule of Abdalla: from
   src/RELAY/repair_10_bal.py repair_10_bal (33-54), repair_10_Abdalla_ipo (57-245),
   repair_10_Abdalla_no_ipo (248-321), calc_dist_10_options_1 and calc_dist_10_options_3
   (438-481), and of src/guidelines/ten_percent_rule_Abdalla.py (27-97).
   Floats are exact rationals. In the repair, [dist] is the value of calc_distance_Abdalla
   for four in-plane lamination parameters. Definitions only. *)
From Coq Require Import Qround.
From Verif Require Import Base Uniq Constraints Divers Divide Search Repair10 Membrane.
Local Open Scope Z_scope.

(* ------------------------------------------------------------------ *)
(** ** ten_percent_rule_Abdalla.py *)
(** 1 - 4 * constraints.percent_Abdalla *)
Definition abdalla_k (c : cons) : Q := (1 - 4 * percent_Abdalla c)%Q.
Definition em15 : Q := 1 # 1000000000000000.              (* 1e-15 *)
(** lines 71-75 *)
Definition abdalla_inside (c : cons) (x : vec) : bool :=
  let k := abdalla_k c in
  (Qltb 0 (k * k + k * x 1%nat - 2 * (x 0%nat * x 0%nat) + em15) && Qltb 0 (k - x 1%nat + em15))%bool.
(** np.linspace(-r, r, num), num >= 2 *)
Definition linspace (r : Q) (num : nat) : list Q :=
  map (fun i => - r + inject_Z (Z.of_nat i) * (2 * r / inject_Z (Z.of_nat num - 1)))%Q (seq 0 num).
(** the square of calc_distance_2_points (lines 27-43) *)
Definition dist2_points (x y x' y' : Q) : Q := ((x - x') * (x - x') + (y - y') * (y - y'))%Q.
(** lines 81-84 and 86-88 *)
Definition parabola_Abdalla (c : cons) (x : Q) : Q :=
  (2 * ((x / abdalla_k c) * (x / abdalla_k c)) - abdalla_k c)%Q.
Definition line_Abdalla (c : cons) (x : Q) : Q := abdalla_k c.
Definition qmin2 (x y : Q) : Q := if Qltb y x then y else x.
Definition qmin (l : list Q) : Q := match l with [] => 0%Q | a :: t => fold_left qmin2 t a end.
(** lines 46-97: the square of the distance; [r] is the value of math.sqrt(1 - 4 p); None
    (no return statement) when the rule is off *)
Definition calc_distance2_Abdalla (c : cons) (r : Q) (num : nat) (x : vec) : option Q :=
  if (rule_10_percent c && rule_10_Abdalla c)%bool then
    if abdalla_inside c x then Some 0%Q
    else
      let d f := map (fun p => dist2_points (x 0%nat) (x 1%nat) p (f p)) (linspace r num) in
      Some (qmin2 (qmin (d (parabola_Abdalla c))) (qmin (d (line_Abdalla c))))
  else None.

(* ------------------------------------------------------------------ *)
Section Abdalla.
Variable c : cons.
Variable cos_sin : Z -> nat -> Q.
Variable dist : vec -> Q.

(** calc_dist_10_options_1 / calc_dist_10_options_3: the table, row by row *)
Definition dist_options (shifts : list vec) (x : vec) : list Q :=
  flat_map (fun i => map (fun j =>
      if Nat.eqb i j then e10
      else dist (vadd (vsub x (vnth shifts i)) (vnth shifts j)))
    (seq 0 (length shifts))) (seq 0 (length shifts)).

(** the while loops of lines 83-185 and 275-319; m_obj is dist_10. A step is refused (its
    entry becomes 1e10) or gives the next state. *)
Fixpoint approach (m : nat) (opts : vec -> list Q) (step : mstate -> Q -> nat -> nat -> result (option mstate))
    (fuel : nat) (tab : list Q) (st : mstate) : result mstate :=
  if Qltb em10 (m_obj st) then
    match fuel with
    | O => Err OutOfFuel
    | S fuel =>
      do k <- argmin tab;
      do r <- step st (nth k tab 0%Q) (k / m)%nat (k mod m)%nat;
      match r with
      | None => approach m opts step fuel (upd k e10 tab) st
      | Some st' =>
        if Qltb (m_obj st') em10 then Ok st'
        else approach m opts step fuel (opts (m_lp st')) st'
      end
    end
  else Ok st.

(** lines 67-72 and 258-266: the initial state *)
Definition start_dist (ss q : list Z) : result mstate :=
  do x <- calc_lampamA_ply_queue c cos_sin ss q;
  do l <- calc_ind_plies c 100 ss q;
  Ok {| m_ss := ss; m_q := q; m_lp := x; m_obj := dist x; m_ind := l; m_excess := [] |}.

(** lines 87-177: a couple of plies +-a1 becomes a couple +-a2 *)
Definition couple_step (order : list Z) (n : nat) (st : mstate) (v : Q) (i j : nat) : result (option mstate) :=
  let a1 := nth i (pos_angles c) 0 in let a2 := nth j (pos_angles c) 0 in
  do k1 <- lookup c a1; do k1' <- lookup c (- a1); do k2 <- lookup c a2; do k2' <- lookup c (- a2);
  if no_couple a1 k1 k1' (m_ind st) then Ok None
  else
    let lp := vadd (m_lp st) (vsub (vnth (shifts_1 c cos_sin n) j) (vnth (shifts_1 c cos_sin n) i)) in
    do s <- change_couple c order a1 a2 k1 k1' k2 k2' st lp v []; Ok (Some s).

(** lines 276-313: a ply a1 becomes a ply a2 *)
Definition one_step (order : list Z) (n : nat) (st : mstate) (v : Q) (i j : nat) : result (option mstate) :=
  if Nat.ltb (length (nth i (m_ind st) [])) 1 then Ok None
  else
    let lp := vadd (m_lp st) (vsub (vnth (shifts_3 c cos_sin n) j) (vnth (shifts_3 c cos_sin n) i)) in
    do s <- change_one c order (nth i (set_of_angles c) 0) (nth j (set_of_angles c) 0) i j st lp v []; Ok (Some s).

(** lines 193-216 and 218-243: a ply a becomes a ply b; None when nothing changes *)
Definition exchange (shift : vec) (a b : Z) (ka : nat) (st : mstate) : result (option (list Z * list Z)) :=
  match nth ka (m_ind st) [] with
  | [] => Ok None
  | _ =>
    if Qltb (dist (vadd (m_lp st) shift) + em20) (m_obj st) then
      do p <- pop_index ka (m_ind st);
      do s <- change_ply c (fst p) a b (m_ss st, m_q st); Ok (Some s)
    else Ok None
  end.

(** lines 57-245 *)
Definition repair_10_Abdalla_ipo (fuel : nat) (ss q : list Z) : result (list Z * list Z) :=
  do st <- start_dist ss q;
  let n := length ss in
  let sh := shifts_1 c cos_sin n in
  do st <- approach (length (pos_angles c)) (dist_options sh) (couple_step (sort_order c 100 n) n)
             fuel (dist_options sh (m_lp st)) st;
  do i0 <- index_pos c 0; do i90 <- index_pos c 90;
  do k0 <- lookup c 0; do k90 <- lookup c 90;
  do o <- exchange (vscale (1 # 2) (vsub (vnth sh i90) (vnth sh i0))) 0 90 k0 st;
  match o with
  | Some s => Ok s
  | None =>
    do o <- exchange (vscale (1 # 2) (vsub (vnth sh i0) (vnth sh i90))) 90 0 k90 st;
    match o with Some s => Ok s | None => Ok (m_ss st, m_q st) end
  end.

(** lines 248-321 *)
Definition repair_10_Abdalla_no_ipo (fuel : nat) (ss q : list Z) : result (list Z * list Z) :=
  do st <- start_dist ss q;
  let n := length ss in
  let sh := shifts_3 c cos_sin n in
  do st <- approach (length (set_of_angles c)) (dist_options sh) (one_step (sort_order c 100 n) n)
             fuel (dist_options sh (m_lp st)) st;
  Ok (m_ss st, m_q st).

(** lines 33-54 repair_10_bal, with the rule of Abdalla or without *)
Definition repair_10_bal_all (fuel : nat) (ss : list Z) (m : mini10) : result (list Z * list Z) :=
  if negb (rule_10_percent c && rule_10_Abdalla c) then Ok (repair_10_bal_2 c ss m)
  else
    let '(s, q) := repair_10_bal_2 c ss (calc_mini_10 c (length ss)) in
    if bal c then repair_10_Abdalla_ipo fuel s q else repair_10_Abdalla_no_ipo fuel s q.
End Abdalla.
