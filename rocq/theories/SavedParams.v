(* SavedParams.v - model of the set-up sheets that are written and read by people only: the sheet
   Parameters of BELLA (src/BELLA/save_set_up.py 250-304) and the sheets Constraints and Parameters
   of LAYLA (src/LAYLA_V02/save_set_up.py 52-222). As in SavedSetup.v a sheet is a list of labelled
   cells. Floats are exact rationals. Definitions only. *)
From Coq Require Import String.
From Verif Require Import Base Constraints Inputs LaylaInputs Panel SavedSetup.
Local Open Scope Z_scope.
Local Open Scope string_scope.
Local Open Scope list_scope.

Definition int_cell (z : Z) : cell := CNum (inject_Z z).

(** src/BELLA/save_set_up.py 250-304 save_parameters_BELLA; the two time limits, which Parameters
    stores as they are given, are left out *)
Definition save_bella_parameters (p : params) : labelled :=
  [ ("number of initial ply drops", int_cell (o_n_ini p));
    ("minimum group size", int_cell (o_group_size_min p));
    ("maximum group size", int_cell (o_group_size_max p));
    ("global_node_limit", int_cell (o_global p));
    ("global_node_limit_final", int_cell (o_global_final p));
    ("local_node_limit", int_cell (o_local p));
    ("local_node_limit_final", int_cell (o_local_final p));
    ("input number of plies in reference panel", CNum (o_ref p));
    ("repair_membrane_switch", CBool (o_membrane p));
    ("repair_flexural_switch", CBool (o_flexural p));
    ("p_A", CNum (o_p_A p));
    ("n_D1", int_cell (o_n_D1 p)); ("n_D2", int_cell (o_n_D2 p)); ("n_D3", int_cell (o_n_D3 p));
    ("global_node_limit2", int_cell (o_global2 p)); ("local_node_limit2", int_cell (o_local2 p));
    ("global_node_limit3", int_cell (o_global3 p)); ("local_node_limit3", int_cell (o_local3 p)) ].

(** src/LAYLA_V02/save_set_up.py 86-113, the rules that the search is asked to break; the value of
    'No balance !' is the attribute ipo (94-96) *)
Definition save_broken_rules (n : cons) : labelled :=
  ((if diso n then [ ("No diso !", CBool (diso n)); ("delta_angle (no)", int_cell (delta_angle n)) ] else [])
   ++ (if contig n then [ ("No contig !", CBool (contig n));
         ("n_contig (no)", CNum (match n_contig_c n with Some k => num_of_nat k | None => unlimited end)) ] else [])
   ++ (if bal n then [ ("No balance !", CBool (ipo n)) ] else [])
   ++ (if ipo n then [ ("No in-plane orthotropy !", CBool (ipo n)) ] else [])
   ++ (if rule_10_percent n then [ ("No 10% rule !", CBool (rule_10_percent n));
         ("percent_0 (no)", CNum (100 * percent_0 n)); ("percent_45 (no)", CNum (100 * percent_45 n));
         ("percent_90 (no)", CNum (100 * percent_90 n)); ("percent_-45 (no)", CNum (100 * percent_135 n));
         ("percent_+-45 (no)", CNum (100 * percent_45_135 n)) ] else [])).

(** src/LAYLA_V02/save_set_up.py 52-118 save_constraints_LAYLA; the constraints of LAYLA have an
    attribute dam_tol_rule (63-64) *)
Definition save_layla_constraints (c : cons) (broken : option cons) : labelled :=
  let pct (x : Q) := CNum (if rule_10_percent c then (x * 100)%Q else 0%Q) in
  [ ("symmetry", CBool (sym c));
    ("balance", CBool (bal c));
    ("in-plane orthotropy", CBool (ipo c));
    ("out-of-plane orthotropy", CBool (oopo c));
    ("damage tolerance", CBool (dam_tol c));
    ("dam_tol_rule", CNum (num_of_nat (dam_tol_rule c)));
    ("10% rule", CBool (rule_10_percent c));
    ("percent_0", pct (percent_0 c));
    ("percent_45", pct (percent_45 c));
    ("percent_90", pct (percent_90 c));
    ("percent_-45", pct (percent_135 c));
    ("percent_+-45", pct (percent_45_135 c));
    ("diso", CBool (diso c));
    ("delta_angle", int_cell (delta_angle c));
    ("contig", CBool (contig c));
    ("n_contig", CNum (match n_contig_c c with Some n => num_of_nat n | None => unlimited end));
    ("fibre orientations", join (set_of_angles c)) ]
  ++ match broken with Some n => save_broken_rules n | None => [] end.

(** 'name[1]' to 'name[12]': l[0] to l[11]; Parameters has checked that there are 12 *)
Definition numbered (name : string) (l : list Q) : labelled :=
  map (fun sx => ((name ++ fst sx)%string, CNum (snd sx)))
    (List.combine ["[1]"; "[2]"; "[3]"; "[4]"; "[5]"; "[6]"; "[7]"; "[8]"; "[9]"; "[10]"; "[11]"; "[12]"] l).

(** src/LAYLA_V02/save_set_up.py 120-222 save_parameters_LAYLA_V02; 'type of objective function'
    (162-163) is left out like the attribute *)
Definition save_layla_parameters (p : lparams) : labelled :=
  [ ("maximum number of iterations", int_cell (w_outer p));
    ("global_node_limit", int_cell (w_global p)); ("global_node_limit_p", int_cell (w_global_p p));
    ("local_node_limit", int_cell (w_local p)); ("local_node_limit_final", int_cell (w_local_final p));
    ("repair_membrane_switch", CBool (w_membrane p)); ("repair_flexural_switch", CBool (w_flexural p));
    ("p_A", CNum (w_p_A p));
    ("n_D1", int_cell (w_n_D1 p)); ("n_D2", int_cell (w_n_D2 p)); ("n_D3", int_cell (w_n_D3 p));
    ("penalty for the 10% rule (ply counts)", CBool (w_10_pc p));
    ("penalty for the 10% rule (lampam)", CBool (w_10_lampam p));
    ("penalty for balance", CBool (w_bal p));
    ("penalty for in-plane orthotropy", CBool (w_ipo p));
    ("coeff for in-plane orthotropy/balance penalty", CNum (w_coeff_bal_ipo p));
    ("coeff for out-of plane orthotropy penalty", CNum (w_coeff_oopo p));
    ("coeff for the 10% rule penalty", CNum (w_coeff_10 p));
    ("minimum group size", int_cell (w_group_min p));
    ("maximum group size", join (w_group_max p)) ]
  ++ numbered "first_level_sensitivities" (w_sens p) ++ numbered "lampam_to_be_optimised" (w_tbo p).
