(* Guidelines.v - model of the lay-up guideline tests in /repo/src/guidelines:
   disorientation.py, contiguity.py, internal_contig.py (internal_contig2),
   balance.py, dam_tol.py, ten_percent_rule.py, one_stack.py (check_lay_up_rules),
   and calc_delta_angle of /repo/src/RELAY/repair_tools.py.
   Definitions only. *)
From Verif Require Import Base Uniq Constraints.

(* ------------------------------------------------------------------ *)
(** * Disorientation *)

(** disorientation.py 64-76 *)
Definition is_diso (a b delta : Z) : bool :=
  if (delta <? Z.abs (a - b)) && (delta <? Z.abs (180 + a - b))
     && (delta <? Z.abs (a - b - 180))
  then false else true.

(** repair_tools.py 60-64 calc_delta_angle *)
Definition calc_delta_angle (a b : Z) : Z :=
  Z.min (Z.abs (b - a)) (Z.min (Z.abs (180 + b - a)) (Z.abs (b - 180 - a))).

(** repair_tools.py 66-73 calc_delta_angle_2: np.argmin returns the first minimum *)
Definition calc_delta_angle_2 (a b : Z) : Z :=
  let x := b - a in let y := 180 + b - a in let z := b - 180 - a in
  let m := if Z.abs y <? Z.abs x then y else x in
  let m := if Z.abs z <? Z.abs m then z else m in
  if m =? -90 then 90 else m.

(** disorientation.py 79-99; [rule = None] is dam_tol_rule=None,
    [npdt = None] is n_plies_dam_tol=None.  Indices stay in range. *)
Definition is_diso_ss (ss : list Z) (delta : Z) (damtol : bool)
           (rule npdt : option nat) : result bool :=
  if damtol then
    let trimmed := (match rule with Some r => Nat.eqb r 2 || Nat.eqb r 3 | None => false end)
                || (match npdt with Some n => Nat.eqb n 2 | None => false end) in
    if trimmed && negb (forallb
           (fun i => is_diso (nth (i + 1) ss 0) (nth (i + 2) ss 0) delta)
           (seq 0 (length ss - 3)))
    then Ok false
    else match rule, npdt with
         | None, None => Err (Raised Other)
         | _, _ => Ok true
         end
  else Ok (forallb (fun i => is_diso (nth i ss 0) (nth (i + 1) ss 0) delta)
                   (seq 0 (length ss - 1))).

(** disorientation.py 174-196, one panel.  np.zeros((size - 1,)) is a ValueError
    for an empty panel. *)
Definition viola_diso_1 (ss : list Z) (delta : Z) : result (list bool) :=
  match ss with
  | [] => Err ValueError
  | _ => Ok (map (fun i => negb (is_diso (nth i ss 0) (nth (i + 1) ss 0) delta))
                 (seq 0 (length ss - 1)))
  end.

Fixpoint mapM {A B} (f : A -> result B) (l : list A) : result (list B) :=
  match l with
  | [] => Ok []
  | a :: t => do b <- f a; do r <- mapM f t; Ok (b :: r)
  end.

Definition calc_penalty_diso_mp_0 (ss : list (list Z)) (delta : Z)
  : result (list (list bool)) := mapM (fun s => viola_diso_1 s delta) ss.

Definition nb_true (l : list bool) : Z := Z.of_nat (countb (fun b => b) l).

(** the trimming shared by disorientation.py 209-215, 229-235 and
    contiguity.py 311-317, 332-338 (BELLA constraints always have dam_tol_rule) *)
Definition dt_trim (c : cons) (ss : list Z) : list Z :=
  if dam_tol c && (Nat.eqb (dam_tol_rule c) 2 || Nat.eqb (dam_tol_rule c) 3)
  then trim ss else ss.

(** disorientation.py 199-217 *)
Definition calc_number_violations_diso_mp (ss : list (list Z)) (c : cons)
  : result (list Z) :=
  do v <- calc_penalty_diso_mp_0 (map (dt_trim c) ss) (delta_angle c);
  Ok (map nb_true v).

(** disorientation.py 219-236 *)
Definition calc_n_penalty_diso_ss (ss : list Z) (c : cons) : result Z :=
  do v <- calc_penalty_diso_mp_0 [dt_trim c ss] (delta_angle c);
  Ok (sumZ (map nb_true v)).

(* ------------------------------------------------------------------ *)
(** * Contiguity *)

(** contiguity.py 75-126.  [g k] is ss[ind + k] (in range because ind < diff). *)
Definition contig_window (n : nat) (g : nat -> Z) : bool :=
  match n with
  | 2%nat => (g 0%nat =? g 1%nat) && (g 2%nat =? g 1%nat)
  | 3%nat => (g 0%nat =? g 1%nat) && (g 2%nat =? g 1%nat) && (g 3%nat =? g 1%nat)
  | 4%nat => (g 0%nat =? g 1%nat) && (g 2%nat =? g 1%nat) && (g 2%nat =? g 3%nat)
             && (g 0%nat =? g 4%nat)
  | 5%nat => (g 0%nat =? g 1%nat) && (g 0%nat =? g 2%nat) && (g 0%nat =? g 3%nat)
             && (g 0%nat =? g 4%nat) && (g 0%nat =? g 5%nat)
  | 6%nat => (g 0%nat =? g 1%nat) && (g 0%nat =? g 2%nat) && (g 0%nat =? g 3%nat)
             && (g 0%nat =? g 4%nat) && (g 0%nat =? g 5%nat) && (g 0%nat =? g 6%nat)
  | _ => false
  end.

Definition is_contig (ss : list Z) (n : nat) : result bool :=
  if Nat.ltb n (length ss) then
    if Nat.leb 2 n && Nat.leb n 6 then
      Ok (forallb (fun ind => negb (contig_window n (fun k => nth (ind + k) ss 0)))
                  (seq 0 (length ss - n)))
    else if negb (Nat.eqb n 1) then Err (Raised NotCoded)
    else Ok true
  else Ok true.

(** internal_contig.py 11-72 internal_contig2 (always compares with stack[jj]) *)
Definition contig_window2 (n : nat) (g : nat -> Z) : bool :=
  forallb (fun k => g 0%nat =? g k) (seq 1 n).

Definition internal_contig2 (ss : list Z) (c : cons) : result bool :=
  if negb (contig c) then Ok true
  else if Nat.ltb (n_contig c) (length ss) then
    if Nat.leb 2 (n_contig c) && Nat.leb (n_contig c) 6 then
      Ok (forallb (fun ind => negb (contig_window2 (n_contig c)
                                      (fun k => nth (ind + k) ss 0)))
                  (seq 0 (length ss - n_contig c)))
    else Err (Raised NotCoded)
  else Ok true.

(** contiguity.py 242-256 *)
Definition calc_contig_vector (ss : list Z) (n : nat) : result (list Z) :=
  if Nat.ltb 0 (length ss - n) then
    mapM (fun ind => do ok <- is_contig (slice ind (ind + n + 1) ss) n;
                     Ok (if ok then 0 else 1))
         (seq 0 (length ss - n))
  else Ok [].

(** contiguity.py 258-297, one panel: the array has dtype bool, so the increments
    by 1 and by 2 both store True; [before] has no influence on the result. *)
Definition viol_contig_1 (ss : list Z) (n : nat) : result (list bool) :=
  mapM (fun ind => do ok <- is_contig (slice ind (ind + n + 1) ss) n; Ok (negb ok))
       (seq 0 (length ss)).

Definition calc_matrix_viol_contig (ss : list (list Z)) (n : nat)
  : result (list (list bool)) := mapM (fun s => viol_contig_1 s n) ss.

(** contiguity.py 300-320 *)
Definition calc_penalty_contig_mp (ss : list (list Z)) (c : cons) : result (list Z) :=
  do v <- calc_matrix_viol_contig (map (dt_trim c) ss) (n_contig c);
  Ok (map nb_true v).

(** contiguity.py 322-340 *)
Definition calc_penalty_contig_ss (ss : list Z) (c : cons) : result Z :=
  do v <- calc_matrix_viol_contig [dt_trim c ss] (n_contig c);
  Ok (sumZ (map nb_true v)).

(* ------------------------------------------------------------------ *)
(** * Balance *)

(** balance.py 20-46.  The iteration order of the Python set is irrelevant. *)
Definition is_balanced (ss : list Z) : bool :=
  forallb (fun a => count a ss =? count (- a) ss)
          (filter (fun a => negb (a =? 0) && negb (a =? 90)) (uniq (map Z.abs ss))).

(** balance.py 69-78, one laminate; ply counts may be halves (middle plies), hence
    rationals; IndexError when an index of angles_bal is out of range. *)
Fixpoint bal_sum (pc : list Q) (ab : list (Z * nat * nat)) : result Q :=
  match ab with
  | [] => Ok 0%Q
  | (_, i, j) :: t =>
      match nth_error pc i, nth_error pc j with
      | Some x, Some y => do r <- bal_sum pc t; Ok (Qabs (x - y) + r)%Q
      | _, _ => Err IndexError
      end
  end.

Definition calc_penalty_bal (pc : list Q) (c : cons) (areas : Q) : result Q :=
  let my_sum := sumQ pc in
  if Qeq_bool my_sum 0 then Ok 0%Q
  else do s <- bal_sum pc (angles_bal c); Ok (areas * s / my_sum)%Q.

(** balance.py 80-93, several laminates *)
Definition calc_penalty_bal_mp (pcs : list (list Q)) (c : cons) (areas : Q)
  : result (list Q) := mapM (fun pc => calc_penalty_bal pc c areas) pcs.

(* ------------------------------------------------------------------ *)
(** * Damage tolerance *)

Definition is45 (a : Z) : bool := (a =? 45) || (a =? -45).

(** dam_tol.py 12-52 (the branch with dam_tol_rule; a BELLA Constraints object
    always has this attribute).  Short stacks: stack[1] / stack[-2] IndexError;
    Python evaluates [or] from left to right and stops at the first truth. *)
Definition is_dam_tol (ss : list Z) (c : cons) : result bool :=
  if negb (dam_tol c) then Ok true
  else
    let g i := match py_get ss i with Some a => Ok a | None => Err IndexError end in
    match dam_tol_rule c with
    | 1%nat =>
        do a <- g 0; if negb (is45 a) then Ok false else
        do z <- g (-1); if negb (is45 z) then Ok false else Ok true
    | 2%nat =>
        do a <- g 0; if negb (is45 a) then Ok false else
        do b <- g 1; if negb (is45 b) then Ok false else
        do z <- g (-1); if negb (is45 z) then Ok false else
        do y <- g (-2); if negb (is45 y) then Ok false else
        if negb (a =? - b) then Ok false else
        if negb (z =? - y) then Ok false else Ok true
    | 3%nat =>
        do a <- g 0; if negb (is45 a) then Ok false else
        do b <- g 1; if negb (is45 b) then Ok false else
        do z <- g (-1); if negb (is45 z) then Ok false else
        do y <- g (-2); if negb (is45 y) then Ok false else Ok true
    | _ => Err (Raised NotCoded)
    end.

(* ------------------------------------------------------------------ *)
(** * The 10% rule *)

Definition share (n : Z) (tot : nat) : Q := (inject_Z n / inject_Z (Z.of_nat tot))%Q.

(** ten_percent_rule.py 162-192: the comparisons common to the stack branches;
    n0, n45, n90, n135 are the ply counts.  Empty stack: ZeroDivisionError. *)
Definition ten_compare (c : cons) (n0 n45 n90 n135 : Z) (tot : nat)
           (eq45 eq090 : bool) : result bool :=
  if Nat.eqb tot 0 then Err ZeroDivision else
  let p0 := share n0 tot in let p45 := share n45 tot in
  let p90 := share n90 tot in let p135 := share n135 tot in
  Ok (
    if negb eq090 && (Qltb (p0 + eps15) (percent_0 c) || Qltb (p90 + eps15) (percent_90 c))
    then false
    else if eq090 && Qltb (p0 + p90 + eps15) (percent_0 c + percent_90 c) then false
    else if negb eq45 && (Qltb (p45 + eps15) (percent_45 c)
                          || Qltb (p135 + eps15) (percent_135 c)) then false
    else if eq45 && Qltb (p45 + p135 + eps15) (percent_45 c + percent_135 c) then false
    else if Qltb (p45 + p135 + eps15) (percent_45_135 c) then false
    else true).

(** ten_percent_rule.py 125-192 with ply_queue=None, LPs=None (for an empty array
    the builtin sum is the Python int 0 and the division raises) *)
Definition is_ten_percent_stack (c : cons) (ss : list Z) (eq45 eq090 : bool) : result bool :=
  ten_compare c (count 0 ss) (count 45 ss) (count 90 ss) (count (-45) ss) (length ss)
              eq45 eq090.

(** ten_percent_rule.py 130-155 with a ply queue; line 142 reads the middle ply at
    stack[stack.size % 2], i.e. at index 1 *)
Definition is_ten_percent_queue (c : cons) (ss queue : list Z) (eq45 eq090 : bool)
  : result bool :=
  if sym c then
    let half := firstn (length ss / 2) ss in
    let n a := 2 * (count a half + count a queue) in
    if Nat.eqb (length ss mod 2) 1 then
      match nth_error ss (length ss mod 2) with
      | None => Err IndexError
      | Some m =>
          let p a := if m =? a then 1 else 0 in
          ten_compare c (n 0 + p 0) (n 45 + p 45) (n 90 + p 90) (n (-45) + p (-45))
                      (length ss) eq45 eq090
      end
    else ten_compare c (n 0) (n 45) (n 90) (n (-45)) (length ss) eq45 eq090
  else
    let n a := count a ss + count a queue in
    ten_compare c (n 0) (n 45) (n 90) (n (-45)) (length ss) eq45 eq090.

(** ten_percent_rule.py 110-123: test on ply counts (no tolerance).  With numpy
    counts and a zero total the shares are nan, every comparison is False and the
    answer True. *)
Definition getQ (pc : list Q) (c : cons) (a : Z) : result Q :=
  match index_of a (set_of_angles c) with
  | None => Err KeyError
  | Some i => match nth_error pc i with Some x => Ok x | None => Err IndexError end
  end.

Definition is_ten_percent_pc (c : cons) (pc : list Q) : result bool :=
  if Qltb 0 (percent_tot c) then
    let tot := sumQ pc in
    if Qeq_bool tot 0 then Ok true else
    do n0 <- getQ pc c 0; do n45 <- getQ pc c 45;
    do n90 <- getQ pc c 90; do n135 <- getQ pc c (-45);
    Ok (negb (Qltb (n0 / tot) (percent_0 c) || Qltb (n45 / tot) (percent_45 c)
              || Qltb (n90 / tot) (percent_90 c) || Qltb (n135 / tot) (percent_135 c)
              || Qltb (n45 / tot + n135 / tot) (percent_45_135 c)))
  else Ok true.

(** ten_percent_rule.py 100-108: Abdalla variant on lamination parameters *)
Definition is_ten_percent_Abdalla (c : cons) (lp1 lp2 : Q) : bool :=
  let q := (1 - 4 * percent_Abdalla c)%Q in
  if Qltb (q * q + q * lp2 - 2 * (lp1 * lp1) + eps15) 0 then false
  else if Qltb (q - lp2 + eps15) 0 then false
  else true.

(** Python's max(0, x) *)
Definition pos (x : Q) : Q := Qmaxb 0 x.

(** the sum of shortfalls, ten_percent_rule.py 222-227 = 256-261 = 276-281 *)
Definition pen10 (c : cons) (p0 p45 p90 p135 : Q) : Q :=
  (pos (percent_0 c - p0) + pos (percent_45 c - p45) + pos (percent_90 c - p90)
   + pos (percent_135 c - p135) + pos (percent_45_135 c - p45 - p135))%Q.

(** ten_percent_rule.py 195-238, LPs=None, mp=False.  For an empty stack numpy
    computes nan shares and Python's max(0, nan) is 0: the penalty is 0. *)
Definition calc_penalty_10_ss (ss : list Z) (c : cons) : result Q :=
  if Qltb 0 (percent_tot c) then
    if Nat.eqb (length ss) 0 then Ok 0%Q else
    Ok (pen10 c (share (count 0 ss) (length ss)) (share (count 45 ss) (length ss))
              (share (count 90 ss) (length ss)) (share (count (-45) ss) (length ss)))
  else Ok 0%Q.

(** ten_percent_rule.py 241-262, one laminate.  With a zero total the code falls
    through to the loop of lines 263-282 and indexes a scalar (TypeError), unless
    the array is empty. *)
Definition calc_penalty_10_pc (pc : list Q) (c : cons) (areas : Q) : result Q :=
  if Qltb 0 (percent_tot c) then
    let tot := sumQ pc in
    if Qeq_bool tot 0 then Err TypeError else
    do n0 <- getQ pc c 0; do n45 <- getQ pc c 45;
    do n90 <- getQ pc c 90; do n135 <- getQ pc c (-45);
    Ok (areas * pen10 c (n0 / tot) (n45 / tot) (n90 / tot) (n135 / tot))%Q
  else Ok 0%Q.

(* ------------------------------------------------------------------ *)
(** * The final gate *)

(** one_stack.py 28-74.  [lampamA ss] stands for calc_lampamA(ss)[2:4] of the
    package CLA (absent from the repository): an oracle returning the two values
    tested at line 48. *)
Definition gate_ipo (l34 : Q * Q) : bool :=
  let lim := (1 # 10000000000)%Q in
  Qltb lim (Qabs (fst l34)) || Qltb lim (Qabs (snd l34)).

Definition check (r : result bool) (e : reason) : result unit :=
  do b <- r; if b then Ok tt else Err (Raised e).

Definition check_lay_up_rules (lampamA34 : list Z -> Q * Q) (ss : list Z) (c : cons)
           (no_ipo no_bal eq45 eq090 : bool) (n_plies : option nat) : result unit :=
  do _ <- guard (match n_plies with Some n => negb (Nat.eqb (length ss) n) | None => false end)
                (Raised WrongPlyCount);
  do _ <- (if dam_tol c then check (is_dam_tol ss c) DamTolViolated else Ok tt);
  do _ <- (if negb no_bal && bal c then check (Ok (is_balanced ss)) BalanceViolated else Ok tt);
  do _ <- (if negb no_ipo && ipo c
           then check (Ok (negb (gate_ipo (lampamA34 ss)))) IpoViolated else Ok tt);
  do _ <- (if diso c
           then check (is_diso_ss ss (delta_angle c) (dam_tol c)
                                  (Some (dam_tol_rule c)) None) DisoViolated
           else Ok tt);
  do _ <- (if contig c then check (is_contig ss (n_contig c)) ContigViolated else Ok tt);
  do _ <- (if rule_10_percent c
           then check (is_ten_percent_stack c ss eq45 eq090) TenPercentViolated else Ok tt);
  Ok tt.
