(* Levels.v - model of src/BELLA/optimiser_with_one_pdl.py 51-78 (weightings of the lamination
   parameters at each level of the search) and 244-300 (objective of a node). Floats are exact
   rationals. Definitions only. *)
From Verif Require Import Base Moments Objectives.
Local Open Scope Z_scope.

(** np.isclose(x, 0): |x| <= 1e-8 *)
Definition close0 (x : Q) : bool := Qle_bool (Qabs x) (1 # 100000000).

(** lines 61-72: panel.lampam_weightings[0:4], [4:8] and [8:12] times the cumulated moments of
    areas, of first order and of second order *)
Definition spread (w : list Q) (area first second : Q) : list Q :=
  map (fun x => (x * area)%Q) (firstn 4 w) ++ map (fun x => (x * first)%Q) (firstn 4 (skipn 4 w)) ++ map (fun x => (x * second)%Q) (firstn 4 (skipn 8 w)).

(** lines 74-78; a vanishing sum (negative weightings) is not considered. The fractions are
    reduced, which does not change their values *)
Definition normalised (l : list Q) : list Q := if forallb close0 l then l else let s := sumQ l in map (fun x => Qred (x / s)) l.

(** lines 51-78, one panel of n plies: the weightings of every level (column of the layout) *)
Definition level_weightings (sym : bool) (n : nat) (row : list Z) (w : list Q) : result (list (list Q)) :=
  let moments (f : mom -> Q) := calc_mom_of_areas2 row (map f (mom_areas_plus sym n)) in
  do areas <- moments m_area; do firsts <- moments m_first; do seconds <- moments m_second;
  Ok (map (fun l => normalised (spread w (nth l areas 0%Q) (nth l firsts 0%Q) (nth l seconds 0%Q))) (seq 0 (length row))).

(** the 12 lamination parameters of a panel of a node *)
Definition twelve_of (x : lampam) : list Q := map (fun k => Qred (x k)) (seq 0 12).

(** lines 244-300: calc_obj_each_panel with the weightings of the level, then
    calc_obj_multi_panel where all the penalties are zero; oopo and weight are left to their
    default values 0 *)
Definition node_objective (targets weights : list (list Q)) (panel_weightings : list Q) (coeffs : coefficients) (xs : list lampam) : result Q :=
  do obj <- calc_obj_each_panel (map (fun x => (fst (fst x), snd (fst x), snd x)) (List.combine (List.combine (map twelve_of xs) targets) weights));
  let zeros := AArr (map (fun _ => 0%Q) xs) in
  calc_obj_multi_panel obj panel_weightings
    {| p_diso := zeros; p_contig := zeros; p_10 := zeros; p_bal_ipo := zeros; p_oopo := ANum 0; p_weight := ANum 0 |}
    {| c_diso := c_diso coeffs; c_contig := c_contig coeffs; c_10 := c_10 coeffs; c_bal_ipo := c_bal_ipo coeffs; c_oopo := 0; c_weight := 0 |}.

(** the value stored in obj_constraints_tab. [tables]: the weightings of every panel and level.
    The error case (vectors of other sizes) is excluded by the checks of [search_problem] *)
Definition node_score (targets : list (list Q)) (tables : list (list (list Q))) (panel_weightings : list Q) (coeffs : coefficients) (level : nat) (xs : list lampam) : Q :=
  match node_objective targets (map (fun t => nth level t []) tables) panel_weightings coeffs xs with Ok q => Qred q | Err _ => 0%Q end.
