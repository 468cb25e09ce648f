(* PdlIni.v - model of src/BELLA/pdl_ini.py (create_initial_pdl) and of
   src/BELLA/multipanels.py calc_ply_drops: one initial ply-drop layout of a structure, made
   of one random layout per group of plies. The random draws and the time-outs of every group
   are inputs. Definitions only. *)
From Verif Require Import Base Uniq Divers Strip Spacing Format PdlTools Search PdlGroup.
Local Open Scope Z_scope.

Record ini_args := {
  i_sizes : list Z;             (* multipanel.reduced.n_plies_per_group *)
  i_panels : list (list Z);     (* n_plies_per_group of the panels of the blending strip *)
  i_max : nat;                  (* multipanel.n_plies_max *)
  i_has_middle : bool;          (* multipanel.has_middle_ply *)
  i_middle_indices : list Z;    (* multipanel.reduced.middle_ply_indices *)
  i_covering : nat;             (* constraints.n_covering *)
  i_spacing : bool; i_min_drop : Z; i_strip : strip }.

(** multipanels.py:233-242 calc_ply_drops *)
Definition calc_ply_drops (a : ini_args) (step : nat) : result (list Z) :=
  mapR (fun p => do s <- row (i_sizes a) step; do x <- row p step; Ok (s - x)) (i_panels a).

(** the draws and the time-out of every group *)
Definition randomness := nat -> list draw * bool.

(** pdl_ini.py:241-257 and 291-307: the first of the layouts returned for one group; the
    covering plies are outside the groups, so that covering_top and covering_bottom are False *)
Definition group_call (a : ini_args) (before after : option (list (list Z))) (last_sym : bool) (middle : option (list Z))
  (rnd : randomness) (step : nat) : result (list (list Z)) :=
  do drops <- calc_ply_drops a step;
  do s <- row (i_sizes a) step;
  do r <- randomly_pdl_guide
    {| a_top := false; a_bottom := false; a_n_max := Z.to_nat s; a_drops := drops; a_middle := middle;
       a_spacing := i_spacing a; a_min_drop := i_min_drop a; a_strip := i_strip a;
       a_before := before; a_after := after; a_last_sym := last_sym |} 1 (fst (rnd step)) (snd (rnd step));
  row r 0.

(** lines 235-257: symmetric laminates, the [k] groups from [step] on; the layout of a group
    is drawn with the one of the preceding group as pdl_before *)
Fixpoint sym_groups (a : ini_args) (rnd : randomness) (prev : option (list (list Z))) (step k : nat) : result (list (list (list Z))) :=
  match k with
  | O => Ok []
  | S k' =>
    let last_group := Nat.eqb k' 0 in
    do t <- group_call a prev None last_group
              (if (last_group && i_has_middle a)%bool then Some (i_middle_indices a) else None) rnd step;
    do r <- sym_groups a rnd (Some t) (S step) k';
    Ok (t :: r)
  end.

(** lines 279-312: asymmetric laminates; [before] and [after] hold the first step + 2 places
    of pdl_before_cummul and pdl_after_cummul *)
Fixpoint asym_groups (a : ini_args) (rnd : randomness) (before after : local_pdls) (step k : nat) : result (local_pdls * local_pdls) :=
  match k with
  | O => Ok (before, after)
  | S k' =>
    if Nat.even step then
      do p <- row before step;
      do t <- group_call a p None false None rnd step;
      asym_groups a rnd (before ++ [Some t]) (after ++ [None]) (S step) k'
    else
      do p <- row after step;
      do t <- group_call a None p false None rnd step;
      asym_groups a rnd (before ++ [None]) (after ++ [Some t]) (S step) k'
  end.

(** lines 215-316 *)
Definition create_initial_pdl (a : ini_args) (sym : bool) (rnd : randomness) : result (list (list Z)) :=
  let dims := {| d_panels := length (i_panels a); d_max := i_max a; d_middle := i_has_middle a |} in
  let cov := covering_pdl (i_covering a) (length (i_panels a)) in
  let n := length (i_sizes a) in
  if sym then
    do ts <- sym_groups a rnd cov 0 n;
    global_pdl_from_local_pdl dims true (cov :: map Some ts) None
  else
    do ba <- asym_groups a rnd [cov; None] [None; cov] 0 n;
    global_pdl_from_local_pdl dims false (fst ba) (Some (snd ba)).
