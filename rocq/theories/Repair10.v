(* Repair10.v - model of src/RELAY/repair_10_bal.py: repair of a laminate for balance and
   for the 10% rule on ply counts (calc_mini_10, repair_10_bal_2 and the branch of
   repair_10_bal without the rule of Abdalla). Floats are exact rationals: the code rounds
   percent * n_plies before ceil. Definitions only. *)
From Coq Require Import Qround.
From Verif Require Import Base Constraints Divide.
Local Open Scope Z_scope.

(** the array mini_10: entries 0 and 1 may be half-integers, the others are integers *)
Record mini10 := { mini_0 : Q; mini_90 : Q; mini_45 : Z; mini_135 : Z; mini_45_135 : Z }.

(** lines 493-498 and 508-513: adjustment of the minima of balanced laminates;
    [x] and [y] are mini_10[2] and mini_10[4] *)
Definition adjust (x y : Z) : Z * Z :=
  let y := if Z.odd y then Z.max (y + 1) (2 * x) else y in
  (Z.max x (y / 2), y).

(** math.ceil(percent * n_plies) *)
Definition ceil_share (p : Q) (n : nat) : Z := Qceiling (p * inject_Z (Z.of_nat n)).
(** ceil(x / 2) *)
Definition half_up (x : Z) : Z := cdiv x 2.

(** lines 472-515 *)
Definition calc_mini_10 (c : cons) (n : nat) : mini10 :=
  let m0 := ceil_share (percent_0 c) n in let m90 := ceil_share (percent_90 c) n in
  let m45 := ceil_share (percent_45 c) n in let m135 := ceil_share (percent_135 c) n in
  let mpm := ceil_share (percent_45_135 c) n in
  let '(m45, m135, mpm) :=
    if ipo c then let '(x, y) := adjust (Z.max m45 m135) mpm in (x, x, y) else (m45, m135, mpm) in
  if sym c then
    let q0 := if Nat.odd n then (inject_Z m0 / 2)%Q else inject_Z (half_up m0) in
    let q90 := if Nat.odd n then (inject_Z m90 / 2)%Q else inject_Z (half_up m90) in
    let m45 := half_up m45 in let m135 := half_up m135 in let mpm := half_up mpm in
    let '(m45, m135, mpm) := if ipo c then let '(x, y) := adjust m45 mpm in (x, x, y) else (m45, m135, mpm) in
    {| mini_0 := q0; mini_90 := q90; mini_45 := m45; mini_135 := m135; mini_45_135 := mpm |}
  else
    {| mini_0 := inject_Z m0; mini_90 := inject_Z m90; mini_45 := m45; mini_135 := m135; mini_45_135 := mpm |}.

(** lines 344-353: the order in which the plies are considered *)
Definition ind_plies (sym : bool) (n : nat) : list nat :=
  if sym then seq 0 (n / 2)
  else interleave (rev (skipn (n / 2) (seq 0 n))) (firstn (n / 2) (seq 0 n)).

(** lines 341-342: the middle ply *)
Definition set_middle (sym : bool) (ss : list Z) : list Z :=
  if (sym && Nat.odd (length ss) &&
      negb ((nth (length ss / 2) ss 0 =? 0) || (nth (length ss / 2) ss 0 =? 90)))%bool
  then upd (length ss / 2) 0 ss else ss.

(** lines 356-366: the initial queue (range of a negative number is empty) *)
Definition first_queue (c : cons) (m : mini10) : list Z :=
  if rule_10_percent c then
    repeat 0 (Z.to_nat (Qceiling (mini_0 m))) ++ repeat 90 (Z.to_nat (Qceiling (mini_90 m))) ++
    repeat 45 (Z.to_nat (mini_45 m)) ++ repeat (-45) (Z.to_nat (mini_135 m))
  else [].

(** lines 368-372 *)
Definition first_missing (c : cons) (m : mini10) : Z :=
  if (rule_10_percent c && negb (Qeq_bool (percent_45_135 c) 0))%bool
  then mini_45_135 m - mini_45 m - mini_135 m else 0.

(** list.remove *)
Fixpoint remove1 (a : Z) (l : list Z) : list Z :=
  match l with [] => [] | b :: t => if b =? a then t else b :: remove1 a t end.

(** lines 389-395: a ply of angle [a] is kept *)
Definition take_ply (ipo : bool) (a : Z) (q : list Z) (missing : Z) : list Z * Z :=
  if memb a q then (remove1 a q, missing)
  else ((if (ipo && negb ((a =? 0) || (a =? 90)))%bool then q ++ [- a] else q),
        (if (negb ipo && ((a =? 45) || (a =? -45)))%bool then Z.max 0 (missing - 1) else missing)).

(** lines 374-406: [l] are the angles still to consider; the number of plies kept from here
    on, the queue, missing_extra_45_135 and change. The queue of before is restored when the
    remaining plies are too few, missing_extra_45_135 is not. *)
Fixpoint queue_loop (ipo : bool) (l q : list Z) (missing : Z) : nat * list Z * Z * bool :=
  match l with
  | [] => (0%nat, q, missing, false)
  | a :: t =>
    let (q', missing') := take_ply ipo a q missing in
    if zlen t <? zlen q' + missing' then (0%nat, q, missing', true)
    else let '(k, q2, m2, ch) := queue_loop ipo t q' missing' in (S k, q2, m2, ch)
  end.

(** lines 413-417: -45, 45, -45, ... *)
Definition extra_45 (missing : Z) : list Z :=
  map (fun i => if Nat.odd i then 45 else -45) (seq 0 (Z.to_nat missing)).

(** lines 402-405: the plies from here on become unknown *)
Definition forget (sym : bool) (inds : list nat) (ss : list Z) : list Z :=
  fold_left (fun s i => if sym then upd (length s - i - 1) 666 (upd i 666 s) else upd i 666 s) inds ss.

(** lines 324-432 repair_10_bal_2 *)
Definition repair_10_bal_2 (c : cons) (ss_ini : list Z) (m : mini10) : list Z * list Z :=
  if (negb (ipo c) && negb (rule_10_percent c))%bool then (ss_ini, [])
  else
    let ss := set_middle (sym c) ss_ini in
    let inds := ind_plies (sym c) (length ss) in
    let '(k, q, missing, change) :=
      queue_loop (ipo c) (map (fun i => nth i ss 0) inds) (first_queue c m) (first_missing c m) in
    let q := q ++ extra_45 missing in
    let q := if (change && negb (Nat.eqb (k + length q) (length inds)))%bool then q ++ [0] else q in
    (forget (sym c) (skipn k inds) ss, q).

(** lines 32-40 repair_10_bal without the rule of Abdalla *)
Definition repair_10_bal (c : cons) (ss_ini : list Z) (m : mini10) : list Z * list Z :=
  repair_10_bal_2 c ss_ini m.
