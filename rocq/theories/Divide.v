(* Divide.v - model of src/BELLA/divide_panels.py: division of the panels into groups
   of plies. Integers are exact (the code divides in floating point; the quotients are
   rounded by floor/ceil/int). Definitions only. *)
From Verif Require Import Base Divers.
Local Open Scope Z_scope.

(** math.ceil(a / b) for b > 0 *)
Definition cdiv (a b : Z) : Z := - ((- a) / b).

(** group_size_min, group_size_max (parameters.py:47-61 guarantee 1 <= min <= max) *)
Record sizes := { g_min : Z; g_max : Z }.

(** divide_panels.py:85-106 and 169-193, one value of n_groups: the group sizes.
    [h] is floor(n_lam/2) (symmetric) or n_lam. n_full_groups and n_extra as in the code. *)
Definition full_extra (g : sizes) (h n : Z) : result (Z * Z) :=
  let extra := h - n * g_min g in
  if ((g_max g - g_min g <=? extra) && negb (extra =? 0))%bool then
    if g_max g - g_min g =? 0 then Err ZeroDivision
    else Ok (extra / (g_max g - g_min g), extra mod (g_max g - g_min g))
  else Ok (0, extra).

(** sizes[n - full:] = g_max; sizes[n - full - 1] += extra *)
Definition group_list (g : sizes) (h n : Z) : result (list Z) :=
  if n <? 0 then Err ValueError else
  do fe <- full_extra g h n;
  let (full, extra) := fe in
  let l := repeat (g_min g) (Z.to_nat n) in
  let l := firstn (Z.to_nat (n - full)) l ++ repeat (g_max g) (length (skipn (Z.to_nat (n - full)) l)) in
  if extra =? 0 then Ok l
  else
    let i := n - full - 1 in
    do x <- get l i;
    Ok (if 0 <=? i then upd (Z.to_nat i) (x + extra) l else upd (Z.to_nat (n + i)) (x + extra) l).

(** lines 70-118 / 158-216, the loop on n_groups; [k] values left; the first admissible
    number of groups is taken; falling out of the loop leaves the sizes unbound *)
Fixpoint group_loop (g : sizes) (h n : Z) (k : nat) : result (Z * list Z) :=
  match k with
  | O => Err Unbound
  | S k' =>
    if (g_max g - g_min g) * n <? n * g_max g - h then group_loop g h (n + 1) k'
    else if n =? 0 then group_loop g h (n + 1) k'
    else do l <- group_list g h n; Ok (n, l)
  end.

(** lines 53-72, 117-135 (symmetric) and 142-166, 217-227: PartitioningError when
    mini > maxi, then the loop and the final checks. [n_lam] is n_plies_max - 2*n_covering *)
Definition divide_thickest (sym : bool) (g : sizes) (n_lam : Z) : result (Z * list Z) :=
  let h := if sym then n_lam / 2 else n_lam in
  let mini := cdiv h (g_max g) in
  let maxi := h / g_min g in
  if maxi <? mini then Err (Raised NoDivision)
  else
    do nl <- group_loop g h mini (Z.to_nat (maxi + 1 - mini));
    let (n, l) := nl in
    (* thick_panel_has_middle_ply holds exactly for an odd ply count *)
    do _ <- guard (negb ((if sym then 2 * sumZ l + n_lam mod 2 else sumZ l) =? n_lam)) (Raised NoDivision);
    do _ <- guard (maxi <? n) (Raised NoDivision);
    Ok (n, l).

(** lines 111-115: position of the first ply of each group (symmetric, thickest panel) *)
Fixpoint first_plies (start : Z) (l : list Z) : list Z :=
  match l with [] => [] | x :: t => start :: first_plies (start + x) t end.

(** l[0::2] and l[1::2] *)
Fixpoint evens {A} (l : list A) : list A :=
  match l with [] => [] | a :: t => a :: match t with [] => [] | _ :: t' => evens t' end end.
Fixpoint odds {A} (l : list A) : list A :=
  match l with [] => [] | _ :: t => match t with [] => [] | b :: t' => b :: odds t' end end.
(** r[0::2] = a; r[1::2] = b *)
Fixpoint interleave {A} (a b : list A) : list A :=
  match a with
  | [] => []
  | x :: a' => x :: match b with [] => [] | y :: b' => y :: interleave a' b' end
  end.
(** lines 193-214 and 344-371: asymmetric laminates; groups at even places come first, the
    others in reversed order at the end *)
Definition order_of_groups (l : list Z) : list Z := evens l ++ rev (odds l).
Definition asym_first_plies (start : Z) (l : list Z) : list Z :=
  let pos := first_plies start (order_of_groups l) in
  let m := length (evens l) in
  interleave (firstn m pos) (rev (skipn m pos)).
(** n_first_plies of a panel: the thickest one starts at 0 (lines 111, 206), the thinner
    ones at n_covering (lines 336, 349) *)
Definition n_first_plies (sym : bool) (n_covering n_max n : Z) (l : list Z) : list Z :=
  let start := if n =? n_max then 0 else n_covering in
  if sym then first_plies start l else asym_first_plies start l.

(* ------------------------------------------------------------------ *)
(** * lines 249-320: one thinner panel *)

(** lines 273-280: twice the number of ply drops (it may be half-integer when n_plies_max
    is odd) *)
Definition twice_drops (sym : bool) (n_max n : Z) : Z :=
  if sym then n_max - (n - n mod 2) else 2 * (n_max - n).

(** line 288: floor(n_drops * percent_thickness) *)
Definition spread (d2 : Z) (l : list Z) : list Z :=
  map (fun x => (d2 * x) / (2 * sumZ l)) l.

(** lines 314-321, the for loop: one more drop in the groups of size [s] *)
Fixpoint add_pass (s : Z) (l drops : list Z) (missing : Z) : list Z * Z :=
  match l, drops with
  | x :: l', d :: drops' =>
    if x =? s then
      if missing - 1 =? 0 then (d + 1 :: drops', 0)
      else let (r, m) := add_pass s l' drops' (missing - 1) in (d + 1 :: r, m)
    else let (r, m) := add_pass s l' drops' missing in (d :: r, m)
  | _, _ => (drops, missing)
  end.

(** lines 313-322, the while loop; [s] is group_size_max - iteration *)
Fixpoint add_missing (fuel : nat) (s : Z) (l drops : list Z) (missing : Z) : result (list Z) :=
  if 0 <? missing then
    match fuel with
    | O => Err OutOfFuel
    | S f => let (r, m) := add_pass s l drops missing in add_missing f (s - 1) l r m
    end
  else Ok drops.

(** the ply drops of a thinner panel; line 306: missing = int(n_drops - sum) *)
Definition panel_drops (fuel : nat) (sym : bool) (g : sizes) (n_max n : Z) (l : list Z) : result (list Z) :=
  let d2 := twice_drops sym n_max n in
  let drops := spread d2 l in
  add_missing fuel (g_max g) l drops (Z.quot (d2 - 2 * sumZ drops) 2).

(** lines 244-263 and 325-330: plies per group of any panel *)
Definition plies_per_group (fuel : nat) (sym : bool) (g : sizes) (n_max n : Z) (l : list Z) : result (list Z) :=
  if n =? n_max then Ok l
  else do d <- panel_drops fuel sym g n_max n l; Ok (map2 Z.sub l d).

(* ------------------------------------------------------------------ *)
(** * lines 388-426 forbidden_ply_counts
    (the code reads constraints.n_plies_min/n_plies_max, which Constraints objects do not
    have; here they are arguments) *)
Definition forbidden (sym : bool) (g : sizes) (n_covering n : Z) : bool :=
  let n_lam := n - 2 * n_covering in
  let h := if sym then n_lam / 2 else n_lam in
  h / g_min g <? cdiv h (g_max g).
Definition forbidden_ply_counts (sym : bool) (g : sizes) (n_covering n_min n_max : Z) : list Z :=
  filter (forbidden sym g n_covering) (map (fun k => n_min + Z.of_nat k) (seq 0 (Z.to_nat (n_max + 1 - n_min)))).
