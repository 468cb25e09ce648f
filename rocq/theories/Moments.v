(* Moments.v - model of src/BELLA/ply_order.py, src/BELLA/moments_of_areas.py,
   src/BELLA/lampam_matrix.py and of the accumulation of lamination parameters in
   src/BELLA/optimiser_with_one_pdl.py. Floats are modelled by exact rationals;
   the entries of constraints.cos_sin (floats, hence rationals) are a parameter.
   Everything is per panel (the code loops over the panels independently).
   Definitions only. *)
From Verif Require Import Base Divers Spacing Strip Format Divide.
Local Open Scope Z_scope.

(** number of plies that the search places in a panel of [n] plies *)
Definition n_half (n : nat) : nat := (n / 2 + n mod 2)%nat.

(* ------------------------------------------------------------------ *)
(** * ply_order.py:25-38 calc_ply_order, for one panel of n plies *)
Definition ply_order (sym : bool) (n : nat) : list nat :=
  if sym then seq 0 (n_half n)
  else interleave (firstn (n_half n) (seq 0 n)) (rev (skipn (n_half n) (seq 0 n))).

(* ------------------------------------------------------------------ *)
(** * moments_of_areas.py:12-108 calc_mom_of_areas, for one panel of n >= 1 plies *)
Record mom := { m_area : Q; m_first : Q; m_second : Q }.

Definition cube (x : Q) : Q := (x * x * x)%Q.
Definition sq (x : Q) : Q := (x * x)%Q.

(** lines 55-56, 79-82: (2 / n) * i - 1 *)
Definition pos (n i : nat) : Q := ((2 # 1) / inject_Z (Z.of_nat n) * inject_Z (Z.of_nat i) - 1)%Q.

(** lines 55-59: pos_top of a symmetric laminate, with pos_top[-1] = 0 if n is odd *)
Definition pos_top_sym (n i : nat) : Q :=
  if (Nat.odd n && (S i =? n_half n)%nat)%bool then 0%Q else pos n (S i).

(** lines 64-66 *)
Definition mom_sym (n i : nat) : mom :=
  let t := pos_top_sym n i in let b := pos n i in
  {| m_area := (t - b)%Q; m_first := 0%Q; m_second := (cube t - cube b)%Q |}.
(** lines 68-70 *)
Definition mom_plus_sym (n i : nat) : mom :=
  let t := pos_top_sym n i in let b := pos n i in
  {| m_area := (t - b)%Q; m_first := Qabs (sq t - sq b)%Q; m_second := (cube t - cube b)%Q |}.
(** lines 84-87 *)
Definition mom_asym (n i : nat) : mom :=
  let t := pos n (S i) in let b := pos n i in
  {| m_area := ((t - b) / (2 # 1))%Q; m_first := ((sq t - sq b) / (2 # 1))%Q;
     m_second := ((cube t - cube b) / (2 # 1))%Q |}.
(** lines 90-108 *)
Definition mom_plus_asym (n i : nat) : mom :=
  let t := pos n (S i) in let b := pos n i in
  if Qle_bool 0 (t * b) then
    {| m_area := (Qabs (t - b) / (2 # 1))%Q; m_first := (Qabs (sq t - sq b) / (2 # 1))%Q;
       m_second := (Qabs (cube t - cube b) / (2 # 1))%Q |}
  else
    {| m_area := ((Qabs t + Qabs b) / (2 # 1))%Q; m_first := ((Qabs (sq t) + Qabs (sq b)) / (2 # 1))%Q;
       m_second := ((Qabs (cube t) + Qabs (cube b)) / (2 # 1))%Q |}.

(** the rows of mom_areas[ind_panel]; for asymmetric laminates row k belongs to the
    ply ply_order[k] (lines 79-82) *)
Definition mom_areas (sym : bool) (n : nat) : list mom :=
  if sym then map (mom_sym n) (seq 0 (n_half n)) else map (mom_asym n) (ply_order false n).
(** the rows of mom_areas_plus[ind_panel] *)
Definition mom_areas_plus (sym : bool) (n : nat) : list mom :=
  if sym then map (mom_plus_sym n) (seq 0 (n_half n)) else map (mom_plus_asym n) (ply_order false n).

(* ------------------------------------------------------------------ *)
(** * moments_of_areas.py:111-160 calc_mom_of_areas2, one panel and one of the three
      columns of mom_areas_plus *)

(** cummul[index_ply:] += x, written on the part of the array from index_ply on *)
Definition add_from (x : Q) (l : list Q) : list Q := map (fun y => (y + x)%Q) l.

(** [row]: pdl[ind_panel, index_ply:]; [ws]: the moments from counter_plies + 1 on;
    [acc]: cummul[index_ply:]; the entries of earlier columns do not change any more *)
Fixpoint cumul (row : list Z) (ws : list Q) (acc : list Q) : result (list Q) :=
  match row, acc with
  | x :: row', _ :: _ =>
    if kept x then
      match ws with
      | [] => Err IndexError
      | w :: ws' =>
        match add_from w acc with
        | a :: acc' => do r <- cumul row' ws' acc'; Ok (a :: r)
        | [] => Ok []
        end
      end
    else match acc with a :: acc' => do r <- cumul row' ws acc'; Ok (a :: r) | [] => Ok [] end
  | _, _ => Ok []
  end.

Definition calc_mom_of_areas2 (row : list Z) (ws : list Q) : result (list Q) :=
  cumul row ws (repeat 0%Q (length row)).

(* ------------------------------------------------------------------ *)
(** * lampam_matrix.py:15-66 calc_delta_lampams, for one panel *)

(** an array of 12 lamination parameters, as a function of the index 0..11:
    0-3 in-plane, 4-7 coupling, 8-11 out-of-plane *)
Definition lampam := nat -> Q.

Definition lampam_zero : lampam := fun _ => 0%Q.
Definition lampam_add (a b : lampam) : lampam := fun c => (a c + b c)%Q.

(** lines 47-52 and 59-64: [cos_sin a k] is constraints.cos_sin[index of a, k] *)
Definition ply_lampam (sym : bool) (cos_sin : Z -> nat -> Q) (m : mom) (a : Z) : lampam :=
  fun c =>
    if (c <? 4)%nat then (m_area m * cos_sin a (c mod 4)%nat)%Q
    else if (c <? 8)%nat then (if sym then 0%Q else (m_first m * cos_sin a (c mod 4)%nat)%Q)
    else (m_second m * cos_sin a (c mod 4)%nat)%Q.

(** panels.py: middle_ply_index *)
Definition middle_ply_index (sym : bool) (n : nat) : nat :=
  if (sym && Nat.odd n)%bool then ((n + 1) / 2)%nat else 0%nat.

(** lines 53-54: after the loop ind_ply is the last ply; its row is halved when the
    panel has an odd ply count and ind_ply is middle_ply_index *)
Definition delta_lampams (sym : bool) (cos_sin : Z -> nat -> Q) (n : nat) : list (Z -> lampam) :=
  let rows := map (ply_lampam sym cos_sin) (mom_areas sym n) in
  if (sym && Nat.odd n && (n_half n - 1 =? middle_ply_index sym n)%nat)%bool then
    map (fun p => let '(i, r) := p in
                  if (i =? middle_ply_index sym n)%nat then fun a c => (r a c / (2 # 1))%Q else r)
        (combine (seq 0 (length rows)) rows)
  else rows.

(* ------------------------------------------------------------------ *)
(** * lampam_matrix.py:69-107 calc_delta_lampams2, for one panel: the entry of every
      column, as a function of the angle *)
Fixpoint lampam_matrix (row : list Z) (rows : list (Z -> lampam)) : result (list (Z -> lampam)) :=
  match row with
  | [] => Ok []
  | x :: row' =>
    if kept x then
      match rows with
      | [] => Err IndexError
      | r :: rows' => do m <- lampam_matrix row' rows'; Ok (r :: m)
      end
    else do m <- lampam_matrix row' rows; Ok ((fun _ => lampam_zero) :: m)
  end.

(* ------------------------------------------------------------------ *)
(** * optimiser_with_one_pdl.py: what a node of the search holds for one panel after
      having chosen the angles [angs] at the levels [levels] (lines 172-216).
      [row] is the row of the panel in the ply-drop layout. *)
Record node := { nd_bot : list Z; nd_top : list Z; nd_lampam : lampam }.

Definition node0 : node := {| nd_bot := []; nd_top := []; nd_lampam := lampam_zero |}.

(** lines 172-183 (lamination parameters) and 188-213 (stacking sequences) *)
Definition branch (sym : bool) (row : list Z) (matrix : list (Z -> lampam)) (nd : node) (level : nat) (a : Z) : node :=
  let kp := 0 <=? nth level row (-1) in
  {| nd_bot := if (kp && (sym || Nat.even level))%bool then nd_bot nd ++ [a] else nd_bot nd;
     nd_top := if (kp && negb (sym || Nat.even level))%bool then a :: nd_top nd else nd_top nd;
     nd_lampam := lampam_add (nd_lampam nd) (nth level matrix (fun _ => lampam_zero) a) |}.

Fixpoint search (sym : bool) (row : list Z) (matrix : list (Z -> lampam)) (nd : node) (levels : list nat) (angs : list Z) : node :=
  match levels, angs with
  | l :: levels', a :: angs' => search sym row matrix (branch sym row matrix nd l a) levels' angs'
  | _, _ => nd
  end.

(** lines 381-411: the full stacking sequence of the panel *)
Definition full_stack (sym : bool) (n : nat) (nd : node) : result (list Z) :=
  let s := if sym then
             let s := nd_bot nd ++ rev (nd_bot nd) in
             if Nat.odd n then del (middle_ply_index sym n) s else s
           else nd_bot nd ++ nd_top nd in
  if (length s =? n)%nat then Ok s else Err (Raised WrongPlyCount).
