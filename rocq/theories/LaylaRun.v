(* LaylaRun.v - the single-laminate optimiser put together: constraints and parameters made by the
   constructors of src/LAYLA_V02, the outer loop (optimiser.py), an outer step (outer_step_sym.py,
   outer_step_asym.py, beam_search.py), the repair (src/RELAY/repair_ss.py) and the lay-up rules
   (src/guidelines/one_stack.py). Definitions only. *)
From Verif Require Import Base Constraints Guidelines Moments Search Membrane RepairMp RepairSs Layla LaylaSearch LaylaInputs.
Local Open Scope Z_scope.

(** one_stack.py:28-76 check_lay_up_rules with LAYLA's constraints. The last test, that of the 10%
    rule, reads constraints.rule_10_Abdalla (ten_percent_rule.py:100), which LAYLA's constraints do
    not have: AttributeError (Raised Other) *)
Definition without_10 (c : cons) : cons :=
  {| sym := sym c; bal := bal c; ipo := ipo c; oopo := oopo c; dam_tol := dam_tol c; dam_tol_rule := dam_tol_rule c;
     covering := covering c; n_covering := n_covering c; rule_10_percent := false; rule_10_Abdalla := rule_10_Abdalla c; percent_Abdalla := percent_Abdalla c;
     percent_0 := percent_0 c; percent_45 := percent_45 c; percent_90 := percent_90 c; percent_135 := percent_135 c; percent_45_135 := percent_45_135 c; percent_tot := percent_tot c;
     diso := diso c; delta_angle := delta_angle c; contig := contig c; n_contig := n_contig c; n_contig_c := n_contig_c c;
     set_of_angles := set_of_angles c; angles_bal := angles_bal c; pdl_spacing := pdl_spacing c; min_drop := min_drop c |}.
Definition layla_gate (lampamA34 : list Z -> Q * Q) (c : cons) (ss : list Z) : result unit :=
  do _ <- check_lay_up_rules lampamA34 ss (without_10 c) false false false false None;
  guard (rule_10_percent c) (Raised Other).

(** the parameters that the repair reads; [fuel] bounds a loop of the model (Repair10.v) *)
Definition layla_rparams (p : lparams) (fuel : nat) : rparams :=
  {| r_membrane := w_membrane p; r_flexural := w_flexural p; r_p_A := w_p_A p; r_n_D1 := Z.to_nat (w_n_D1 p); r_n_D2 := Z.to_nat (w_n_D2 p); r_n_D3 := Z.to_nat (w_n_D3 p);
     r_local := 0; r_global := 0; r_fuel := fuel |}.
(** beam_search.py:299-300: the fifth positional argument of repair_ss is obj_no_constraints. With
    the 10% rule repair_10_bal reads constraints.rule_10_Abdalla first (repair_10_bal.py:37): AttributeError.
    NaN weightings count as zero *)
Definition layla_repair (cos_sin : Z -> nat -> Q) (distA : vec -> Q) (target : list Q) (fuel : nat) (c : cons) (p : lparams) (ss : list Z) : result (list Z * bool) :=
  if rule_10_percent c then Err (Raised Other)
  else
    let weights := fun o : option (list Q) => match o with Some l => l | None => [] end in
    do r <- repair_ss c cos_sin distA (weights (w_finalA p)) (weights (w_finalD p)) target (layla_rparams p fuel) true ss;
    Ok (fst r).

(** what the run takes from elsewhere: cosines and sines, the lamination parameters of src/CLA
    (missing), the in-plane ones that one_stack.py reads, the objective at a level and at the end,
    the penalties (calc_penalty_ipo_oopo_ss, which outer_step_*.py and beam_search.py import, does
    not exist) and the repair *)
Record pieces := {
  x_cos_sin : Z -> nat -> Q; x_lampam_of : list Z -> lampam; x_lampamA34 : list Z -> Q * Q;
  x_objective : nat -> lampam -> Q; x_final : lfinal;
  x_pen_10 : list Q -> Q; x_pen_bal : nat -> list Q -> Q; x_pen_ipo : nat -> lampam -> Q; x_pen_oopo : nat -> lampam -> Q;
  x_repair : list Z -> result (list Z * bool) }.

(** optimiser.py:124-158: the arguments of outer_step_sym, outer_step_asym *)
Definition layla_problem (c : cons) (p : lparams) (n : nat) (x : pieces) : lproblem :=
  {| l_cons := c; l_n := n; l_rows := partial_lampams (sym c) (x_cos_sin x) n; l_objective := x_objective x;
     l_pen_10 := x_pen_10 x; l_pen_bal := x_pen_bal x; l_pen_ipo := x_pen_ipo x; l_pen_oopo := x_pen_oopo x;
     l_c10 := w_coeff_10 p; l_cbal := w_coeff_bal_ipo p; l_coopo := w_coeff_oopo p;
     l_repair := x_repair x; l_lampam_of := x_lampam_of x; l_gate := layla_gate (x_lampamA34 x) c;
     l_local := Z.to_nat (w_local p); l_local_final := Z.to_nat (w_local_final p); l_global := Z.to_nat (w_global p); l_global_p := Z.to_nat (w_global_p p) |}.
(** optimiser.py:124-158: an outer step; its lamination parameters as an array of 12 *)
Definition vector (lp : lampam) : list Q := map lp (seq 0 12).
Definition layla_step (c : cons) (p : lparams) (n : nat) (x : pieces) (step : nat) (sizes : list Z) (levels : list (list nat)) (assumed : list lampam) : result outer :=
  do r <- l_outer_step (layla_problem c p n x) (x_final x) levels sizes assumed;
  let '(ss, lp, obj, _) := r in
  Ok {| o_ss := ss; o_lampam := vector lp; o_obj := Some obj |}.

(** optimiser.py:37-228 LAYLA_optimiser(parameters, constraints, targets) without material and
    not_constraints; the keys of ind_angles_dict are the angles and -90 when 90 is one of them *)
Definition layla (c : cons) (p : lparams) (n : nat) (x : pieces) : result layla_result :=
  layla_optimiser (layla_step c p n x) (fun ss => vector (x_lampam_of x ss)) (layla_gate (x_lampamA34 x) c)
    (sym c) (set_of_angles c ++ (if memb 90 (set_of_angles c) then [-90] else [])) (x_cos_sin x) (w_group_min p) (w_group_max p) n (Z.to_nat (w_outer p)).
