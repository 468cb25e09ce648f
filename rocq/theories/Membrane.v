(* Membrane.v - model of the in-plane refinement: src/RELAY/repair_membrane.py,
   repair_membrane_1_ipo.py, repair_membrane_1_no_ipo.py, repair_membrane_1_ipo_Abdalla.py,
   repair_membrane_1_no_ipo_Abdalla.py and, from src/RELAY/repair_10_bal.py, calc_ind_plies,
   calc_lampamA_options_1, calc_lampamA_options_3 and calc_lampamA_ply_queue (lines 543-686).
   Floats are exact rationals; cos_sin gives the four in-plane functions of an angle, and
   [dist] the value of calc_distance_Abdalla for four in-plane lamination parameters.
   666 is an unknown ply of the stack, 6666 the index that stands for a ply of the queue.
   Definitions only. *)
From Coq Require Import Qround.
From Verif Require Import Base Uniq Constraints Divers Divide Search Repair10.
Local Open Scope Z_scope.

Definition vec := nat -> Q.
Definition vadd (x y : vec) : vec := fun i => (x i + y i)%Q.
Definition vsub (x y : vec) : vec := fun i => (x i - y i)%Q.
Definition vscale (k : Q) (x : vec) : vec := fun i => (k * x i)%Q.

Definition e10 : Q := 10000000000 # 1.                    (* 1e10 *)
Definition em10 : Q := 1 # 10000000000.                   (* 1e-10 *)
Definition em20 : Q := 1 # 100000000000000000000.         (* 1e-20 *)

Section Membrane.
Variable c : cons.
Variable cos_sin : Z -> nat -> Q.       (* constraints.cos_sin[ind_angles_dict[angle]] *)
Variable dist : vec -> Q.               (* calc_distance_Abdalla *)
Variables coeffs target : vec.          (* in_plane_coeffs, lampam_target[0:4] *)

(** sum(in_plane_coeffs * ((lampamA - lampam_target[0:4]) ** 2)) *)
Definition objective (x : vec) : Q :=
  sumQ (map (fun i => coeffs i * ((x i - target i) * (x i - target i)))%Q (seq 0 4)).

(** constraints.py 311-312 *)
Definition pos_angles : list Z := uniq (map Z.abs (set_of_angles c)).
Definition lookup (a : Z) : result nat :=
  match ind_angle (set_of_angles c) a with Some k => Ok k | None => Err KeyError end.

(** 1 / n_plies or 2 / n_plies *)
Definition unit_share (n : nat) : Q := ((if sym c then 2 else 1) / inject_Z (Z.of_nat n))%Q.

(** repair_10_bal.py 645-680 calc_lampamA_ply_queue: the plies that are not unknown, of the
    half laminate when it is symmetric, the queue, and half of the middle ply; KeyError for
    an angle that is not allowed *)
Definition known_part (ss : list Z) : list Z :=
  filter (fun a => negb (a =? 666)) (if sym c then firstn (length ss / 2) ss else ss).
Definition middle_part (ss : list Z) : list Z :=
  if (sym c && Nat.odd (length ss))%bool then [nth (length ss / 2) ss 0] else [].
Definition vsum (l : list Z) : vec := fun i => sumQ (map (fun a => cos_sin a i) l).
Definition lampamA_ply_queue (ss q : list Z) : vec :=
  vscale (unit_share (length ss))
    (vadd (vsum (known_part ss ++ q)) (vscale (1 # 2) (vsum (middle_part ss)))).
Definition all_known (ss q : list Z) : bool :=
  forallb (fun a => match ind_angle (set_of_angles c) a with Some _ => true | None => false end)
    (known_part ss ++ q ++ middle_part ss).
Definition calc_lampamA_ply_queue (ss q : list Z) : result vec :=
  if all_known ss q then Ok (lampamA_ply_queue ss q) else Err KeyError.

(** repair_10_bal.py 559-560: the first ply that may change *)
Definition ind_min (p_A : Q) (n : nat) : nat :=
  Z.to_nat (Qfloor ((1 - p_A / 100) * (inject_Z (Z.of_nat n) / 2))%Q).
Definition protected : nat :=
  if dam_tol c then (if (Nat.eqb (dam_tol_rule c) 2 || Nat.eqb (dam_tol_rule c) 3)%bool then 2 else 1) else 0.

(** repair_10_bal.py 561-594: the indices that may change, innermost first; range(a, b) is
    empty when b <= a *)
Definition ind_plies_A (p_A : Q) (n : nat) : list nat :=
  let d := Nat.max protected (ind_min p_A n) in
  let upper := rev (seq d (n / 2 - d)) in
  if sym c then upper
  else let e := Nat.min (n - ind_min p_A n) (n - protected) in
       interleave (seq (n / 2) (e - n / 2)) upper.

(** repair_10_bal.py 596-611 calc_ind_plies: the indices per angle; the 6666 are inserted at
    the front *)
Definition add_index (k : nat) (i : Z) (l : list (list Z)) : list (list Z) := upd k (nth k l [] ++ [i]) l.
Definition push_index (k : nat) (i : Z) (l : list (list Z)) : list (list Z) := upd k (i :: nth k l []) l.
Fixpoint index_plies (ss : list Z) (inds : list nat) (l : list (list Z)) : result (list (list Z)) :=
  match inds with
  | [] => Ok l
  | i :: t =>
    if negb (nth i ss 0 =? 666) then
      do k <- lookup (nth i ss 0); index_plies ss t (add_index k (Z.of_nat i) l)
    else index_plies ss t l
  end.
Fixpoint index_queue (q : list Z) (l : list (list Z)) : result (list (list Z)) :=
  match q with
  | [] => Ok l
  | a :: t => do k <- lookup a; index_queue t (push_index k 6666 l)
  end.
Definition calc_ind_plies (p_A : Q) (ss q : list Z) : result (list (list Z)) :=
  do l <- index_plies ss (ind_plies_A p_A (length ss)) (repeat [] (length (set_of_angles c)));
  index_queue q l.

(* ------------------------------------------------------------------ *)
(** ** The state of the refinement *)
Record mstate := {
  m_ss : list Z; m_q : list Z;
  m_lp : vec; m_obj : Q;               (* lampamA, objA *)
  m_ind : list (list Z);               (* indices_per_angle *)
  m_excess : list Q }.                 (* excess_10; not used with the rule of Abdalla *)

(** what an option is worth: refused (its entry becomes 1e10), refused but with another
    entry set to 1e10, or the new state *)
Inductive verdict := Refuse | RefuseAt (i j : nat) | Accept (s : mstate).

(** calc_objA_options_1 / calc_objA_options_3: the table, row by row *)
Definition options (shifts : list vec) (x : vec) : list Q :=
  flat_map (fun i => map (fun j =>
      if Nat.eqb i j then e10
      else objective (vadd (vsub x (nth i shifts (fun _ => 0%Q))) (nth j shifts (fun _ => 0%Q))))
    (seq 0 (length shifts))) (seq 0 (length shifts)).

(** np.min *)
Definition qmin_list (l : list Q) : result Q :=
  do k <- argmin l; Ok (nth k l 0%Q).

(** the while loop; the list of states visited so far, the last one first *)
Fixpoint refine (m : nat) (opts : vec -> list Q) (step : mstate -> Q -> nat -> nat -> result verdict)
    (fuel : nat) (tab : list Q) (st : mstate) (acc : list mstate) : result (mstate * list mstate) :=
  match fuel with
  | O => Err OutOfFuel
  | S fuel =>
    do k <- argmin tab;
    let v := nth k tab 0%Q in
    if (Qltb (v + em20) (m_obj st) && Qltb em10 (m_obj st))%bool then
      let i := (k / m)%nat in let j := (k mod m)%nat in
      do r <- step st v i j;
      match r with
      | Refuse => refine m opts step fuel (upd k e10 tab) st acc
      | RefuseAt i' j' =>
        if (Nat.ltb i' m && Nat.ltb j' m)%bool then refine m opts step fuel (upd (i' * m + j') e10 tab) st acc
        else Err IndexError
      | Accept st' =>
        if Qltb (m_obj st') em10 then Ok (st', st' :: acc)
        else refine m opts step fuel (opts (m_lp st')) st' (st' :: acc)
      end
    else Ok (st, acc)
  end.

(* ------------------------------------------------------------------ *)
(** ** One change of a ply *)
(** list.remove raises ValueError when the element is missing *)
Definition change_ply (ind from to : Z) (p : list Z * list Z) : result (list Z * list Z) :=
  if ind =? 6666 then
    if memb from (snd p) then Ok (fst p, remove1 from (snd p) ++ [to]) else Err ValueError
  else
    let s := upd (Z.to_nat ind) to (fst p) in
    Ok (if sym c then upd (length s - Z.to_nat ind - 1) to s else s, snd p).

(** l.pop(0) *)
Definition pop_index (k : nat) (l : list (list Z)) : result (Z * list (list Z)) :=
  match nth k l [] with [] => Err IndexError | i :: t => Ok (i, upd k t l) end.

(** the list of an angle after an index was appended: sort(reverse=True), or sortAccording
    the indices [-1, innermost, ..., outermost] followed by reverse *)
Definition resort (order : list Z) (l : list Z) : result (list Z) :=
  if sym c then Ok (rev (isort l)) else do r <- sortAccording l order; Ok (rev r).
Definition resort_at (order : list Z) (k : nat) (l : list (list Z)) : result (list (list Z)) :=
  do r <- resort order (nth k l []); Ok (upd k r l).

Definition add_at (k : nat) (x : Q) (l : list Q) : list Q := upd k (nth k l 0 + x)%Q l.
(** the partner of an angle; 90 is its own partner *)
Definition partner (a : Z) : Z := if a =? 90 then 90 else - a.

(** repair_membrane_1_ipo.py 177-230: a couple of plies +-a1 becomes a couple +-a2 *)
Definition change_couple (order : list Z) (a1 a2 : Z) (k1 k1' k2 k2' : nat) (st : mstate)
    (lp : vec) (obj : Q) (ex : list Q) : result mstate :=
  do p1 <- pop_index k1 (m_ind st);
  do p2 <- pop_index k1' (snd p1);
  do s1 <- change_ply (fst p1) a1 a2 (m_ss st, m_q st);
  do s2 <- change_ply (fst p2) (partner a1) (partner a2) s1;
  let l := add_index k2' (fst p2) (add_index k2 (fst p1) (snd p2)) in
  do l <- resort_at order k2 l;
  do l <- resort_at order k2' l;
  Ok {| m_ss := fst s2; m_q := snd s2; m_lp := lp; m_obj := obj; m_ind := l; m_excess := ex |}.

(** repair_membrane_1_no_ipo.py 140-163: a ply a1 becomes a ply a2 *)
Definition change_one (order : list Z) (a1 a2 : Z) (k1 k2 : nat) (st : mstate)
    (lp : vec) (obj : Q) (ex : list Q) : result mstate :=
  do p1 <- pop_index k1 (m_ind st);
  do s1 <- change_ply (fst p1) a1 a2 (m_ss st, m_q st);
  do l <- resort_at order k2 (add_index k2 (fst p1) (snd p1));
  Ok {| m_ss := fst s1; m_q := snd s1; m_lp := lp; m_obj := obj; m_ind := l; m_excess := ex |}.

(** repair_10_bal.py 613-628 calc_lampamA_options_1, KeyError when -angle is not allowed *)
Definition shifts_1 (n : nat) : list vec :=
  map (fun a => vscale (unit_share n) (vadd (cos_sin a) (cos_sin (partner a)))) pos_angles.
(** repair_10_bal.py 630-643 calc_lampamA_options_3 *)
Definition shifts_3 (n : nat) : list vec :=
  map (fun a => vscale (unit_share n) (cos_sin a)) (set_of_angles c).
Definition vnth (l : list vec) (i : nat) : vec := nth i l (fun _ => 0%Q).

(** fewer than two plies at 0 or 90, or no ply at a1 or at -a1 *)
Definition no_couple (a1 : Z) (k1 k1' : nat) (l : list (list Z)) : bool :=
  if ((a1 =? 0) || (a1 =? 90))%bool then Nat.ltb (length (nth k1 l [])) 2
  else (Nat.ltb (length (nth k1 l [])) 1 || Nat.ltb (length (nth k1' l [])) 1)%bool.

(** the initial state *)
Definition start_state (p_A : Q) (ss q : list Z) (ex : list Q) : result mstate :=
  do x <- calc_lampamA_ply_queue ss q;
  do l <- calc_ind_plies p_A ss q;
  Ok {| m_ss := ss; m_q := q; m_lp := x; m_obj := objective x; m_ind := l; m_excess := ex |}.
Definition sort_order (p_A : Q) (n : nat) : list Z := -1 :: map Z.of_nat (ind_plies_A p_A n).

(* ------------------------------------------------------------------ *)
(** ** repair_membrane_1_no_ipo_Abdalla.py 71-124 *)
Definition step_no_ipo_Abdalla (order : list Z) (n : nat) (st : mstate) (v : Q) (i j : nat) : result verdict :=
  let a1 := nth i (set_of_angles c) 0 in let a2 := nth j (set_of_angles c) 0 in
  if Nat.ltb (length (nth i (m_ind st) [])) 1 then Ok Refuse
  else
    let lp := vsub (vadd (m_lp st) (vnth (shifts_3 n) j)) (vnth (shifts_3 n) i) in
    if Qltb em10 (dist lp) then Ok Refuse
    else do s <- change_one order a1 a2 i j st lp v (m_excess st); Ok (Accept s).

Definition repair_membrane_1_no_ipo_Abdalla (fuel : nat) (p_A : Q) (ss q : list Z) : result (list mstate) :=
  do st <- start_state p_A ss q [];
  let n := length ss in
  do r <- refine (length (set_of_angles c)) (options (shifts_3 n)) (step_no_ipo_Abdalla (sort_order p_A n) n)
            fuel (options (shifts_3 n) (m_lp st)) st [st];
  Ok (snd r).

(* ------------------------------------------------------------------ *)
(** ** repair_membrane_1_ipo_Abdalla.py 81-186; lines 117-119 set the entry
    [ind_angle1, ind_angle2] of the table, indices of set_of_angles *)
Definition step_ipo_Abdalla (order : list Z) (n : nat) (st : mstate) (v : Q) (i j : nat) : result verdict :=
  let a1 := nth i pos_angles 0 in let a2 := nth j pos_angles 0 in
  do k1 <- lookup a1; do k1' <- lookup (- a1); do k2 <- lookup a2; do k2' <- lookup (- a2);
  if no_couple a1 k1 k1' (m_ind st) then Ok Refuse
  else
    let lp := vsub (vadd (m_lp st) (vnth (shifts_1 n) j)) (vnth (shifts_1 n) i) in
    if Qltb em10 (dist lp) then Ok (RefuseAt k1 k2)
    else do s <- change_couple order a1 a2 k1 k1' k2 k2' st lp v (m_excess st); Ok (Accept s).

(** lines 190-256: one 0 ply becomes a 90 ply, or one 90 ply a 0 ply; [allowed] is the
    condition on the 10% rule. No change: None. The lists are not sorted again. *)
Definition swap_0_90 (shift : vec) (allowed : vec -> bool) (a b : Z) (ka : nat) (st : mstate) : result (option mstate) :=
  match nth ka (m_ind st) [] with
  | [] => Ok None
  | _ =>
    let lp := vadd (m_lp st) shift in
    if (Qltb (objective lp + em20) (m_obj st) && allowed lp)%bool then
      do p <- pop_index ka (m_ind st);
      do s <- change_ply (fst p) a b (m_ss st, m_q st);
      Ok (Some {| m_ss := fst s; m_q := snd s; m_lp := lp; m_obj := objective lp; m_ind := snd p; m_excess := m_excess st |})
    else Ok None
  end.

Definition index_pos (a : Z) : result nat :=
  match index_of a pos_angles with Some k => Ok k | None => Err IndexError end.
Definition finish_ipo (n : nat) (ok_0 ok_90 : mstate -> vec -> bool) (r : mstate * list mstate) : result (list mstate) :=
  do i0 <- index_pos 0; do i90 <- index_pos 90;
  do k0 <- lookup 0; do k90 <- lookup 90;
  let sh := vscale (1 # 2) (vsub (vnth (shifts_1 n) i90) (vnth (shifts_1 n) i0)) in
  let st := fst r in
  do o <- swap_0_90 sh (ok_0 st) 0 90 k0 st;
  match o with
  | Some s => Ok (s :: snd r)
  | None =>
    do o <- swap_0_90 (vscale (-1 # 1) sh) (ok_90 st) 90 0 k90 st;
    match o with Some s => Ok (s :: snd r) | None => Ok (snd r) end
  end.

Definition repair_membrane_1_ipo_Abdalla (fuel : nat) (p_A : Q) (ss q : list Z) : result (list mstate) :=
  do st <- start_state p_A ss q [];
  let n := length ss in
  do r <- refine (length pos_angles) (options (shifts_1 n)) (step_ipo_Abdalla (sort_order p_A n) n)
            fuel (options (shifts_1 n) (m_lp st)) st [st];
  finish_ipo n (fun _ lp => Qeq_bool (dist lp) 0) (fun _ lp => Qeq_bool (dist lp) 0) r.

(* ------------------------------------------------------------------ *)
(** ** The refinements under the 10% rule on ply counts *)
(** repair_membrane_1_no_ipo.py 196-232 calc_excess_10 *)
Definition qcount (a : Z) (l : list Z) : Q := inject_Z (count a l).
Definition calc_excess_10 (ss q : list Z) (m : mini10) : result (list Q) :=
  let h := if sym c then firstn (length ss / 2) ss else ss in
  let f := fun a : Z => (qcount a h + qcount a q)%Q in
  let mid := nth (length ss / 2) ss 0 in
  do x <- (if (sym c && Nat.odd (length ss))%bool then
             if mid =? 0 then Ok (1 # 2, 0)%Q else if mid =? 90 then Ok (0, 1 # 2)%Q else Err (Raised Other)
           else Ok (0, 0)%Q);
  Ok [(f 0%Z + fst x - mini_0 m)%Q; (f 90%Z + snd x - mini_90 m)%Q; (f 45%Z - inject_Z (mini_45 m))%Q;
      (f (-45)%Z - inject_Z (mini_135 m))%Q; (f 45%Z + f (-45)%Z - inject_Z (mini_45_135 m))%Q].

(** repair_membrane_1_no_ipo.py 97-137: entry of excess_10 of an angle *)
Definition ten_index (a : Z) : option nat :=
  if a =? 0 then Some 0%nat else if a =? 90 then Some 1%nat
  else if a =? 45 then Some 2%nat else if a =? -45 then Some 3%nat else None.
Definition bump (a : Z) (x : Q) (ex : list Q) : list Q :=
  match ten_index a with Some k => add_at k x ex | None => ex end.

Definition step_no_ipo (order : list Z) (n : nat) (st : mstate) (v : Q) (i j : nat) : result verdict :=
  let a1 := nth i (set_of_angles c) 0 in let a2 := nth j (set_of_angles c) 0 in
  if Nat.ltb (length (nth i (m_ind st) [])) 1 then Ok Refuse
  else if match ten_index a1 with Some k => Qltb (nth k (m_excess st) 0%Q) 1 | None => false end then Ok Refuse
  else
    let lp := vsub (vadd (m_lp st) (vnth (shifts_3 n) j)) (vnth (shifts_3 n) i) in
    do s <- change_one order a1 a2 i j st lp v (bump a2 1 (bump a1 (-1) (m_excess st)));
    Ok (Accept s).

(** lines 58-173, with the functions that the module does not import *)
Definition repair_membrane_1_no_ipo_body (fuel : nat) (p_A : Q) (ss q : list Z) (m : mini10) : result (list mstate) :=
  do ex <- calc_excess_10 ss q m;
  do st <- start_state p_A ss q ex;
  let n := length ss in
  do r <- refine (length (set_of_angles c)) (options (shifts_3 n)) (step_no_ipo (sort_order p_A n) n)
            fuel (options (shifts_3 n) (m_lp st)) st [st];
  Ok (snd r).

(** repair_membrane_1_ipo.py 100-175: entries of excess_10 of a couple and the number of
    plies taken from each *)
Definition ten_couple (a : Z) : list (nat * Q) :=
  if a =? 0 then [(0%nat, 2%Q)] else if a =? 90 then [(1%nat, 2%Q)]
  else if a =? 45 then [(2%nat, 1%Q); (3%nat, 1%Q)] else [].
Definition bump_couple (a : Z) (sign : Q) (ex : list Q) : list Q :=
  fold_left (fun ex p => add_at (fst p) (sign * snd p)%Q ex) (ten_couple a) ex.

Definition step_ipo (order : list Z) (n : nat) (st : mstate) (v : Q) (i j : nat) : result verdict :=
  let a1 := nth i pos_angles 0 in let a2 := nth j pos_angles 0 in
  do k1 <- lookup a1; do k1' <- lookup (- a1); do k2 <- lookup a2; do k2' <- lookup (- a2);
  if no_couple a1 k1 k1' (m_ind st) then Ok Refuse
  else if existsb (fun p => Qltb (nth (fst p) (m_excess st) 0%Q) (snd p)) (ten_couple a1) then Ok Refuse
  else
    let lp := vsub (vadd (m_lp st) (vnth (shifts_1 n) j)) (vnth (shifts_1 n) i) in
    do s <- change_couple order a1 a2 k1 k1' k2 k2' st lp v (bump_couple a2 1 (bump_couple a1 (-1) (m_excess st)));
    Ok (Accept s).

(** lines 56-305, with the function that the module does not import *)
Definition repair_membrane_1_ipo_body (fuel : nat) (p_A : Q) (ss q : list Z) (m : mini10) : result (list mstate) :=
  do ex <- calc_excess_10 ss q m;
  do st <- start_state p_A ss q ex;
  let n := length ss in
  do r <- refine (length pos_angles) (options (shifts_1 n)) (step_ipo (sort_order p_A n) n)
            fuel (options (shifts_1 n) (m_lp st)) st [st];
  finish_ipo n (fun st _ => Qltb (1 # 2) (nth 0 (m_excess st) 0%Q)) (fun st _ => Qltb (1 # 2) (nth 1 (m_excess st) 0%Q)) r.

(** The modules repair_membrane_1_ipo and repair_membrane_1_no_ipo call functions that they
    neither define nor import: calc_lampamA_options_1 (repair_membrane_1_ipo.py 91), after
    calc_excess_10 and calc_ind_plies, and calc_lampamA_ply_queue (repair_membrane_1_no_ipo.py
    62). NameError is [Unbound]. *)
Definition repair_membrane_1_ipo (p_A : Q) (ss q : list Z) (m : mini10) : result (list mstate) :=
  do _ <- calc_lampamA_ply_queue ss q;
  do _ <- calc_excess_10 ss q m;
  do _ <- calc_ind_plies p_A ss q;
  Err Unbound.
Definition repair_membrane_1_no_ipo (p_A : Q) (ss q : list Z) (m : mini10) : result (list mstate) :=
  Err Unbound.

(** repair_membrane.py 61-82 *)
Definition repair_membrane_1 (fuel : nat) (p_A : Q) (ss q : list Z) (m : mini10) : result (list mstate) :=
  if (rule_10_percent c && rule_10_Abdalla c)%bool then
    if ipo c then repair_membrane_1_ipo_Abdalla fuel p_A ss q
    else repair_membrane_1_no_ipo_Abdalla fuel p_A ss q
  else if ipo c then repair_membrane_1_ipo p_A ss q m else repair_membrane_1_no_ipo p_A ss q m.

(** repair_membrane.py 28-59: the laminates and queues, best first. np.isclose: a
    coefficient counts as zero when its absolute value is at most 1e-8 (1 + 1e-5 |coefficient|...):
    np.isclose(0, b) is |b| <= 1e-8 + 1e-5 |b|. *)
Definition close_to_0 (b : Q) : bool := Qle_bool (Qabs.Qabs b) ((1 # 100000000) + (1 # 100000) * Qabs.Qabs b).
Definition no_coeffs : bool := forallb (fun i => close_to_0 (coeffs i)) (seq 0 4).
Definition repair_membrane (switch : bool) (fuel : nat) (p_A : Q) (ss q : list Z) (m : mini10)
  : result (list (list Z * list Z)) :=
  if (negb switch || no_coeffs)%bool then
    do _ <- calc_lampamA_ply_queue ss q; Ok [(ss, q)]
  else do l <- repair_membrane_1 fuel p_A ss q m; Ok (map (fun s => (m_ss s, m_q s)) l).
End Membrane.
