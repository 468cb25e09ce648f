(* RepairSs.v - model of src/RELAY/repair_ss.py *)
From Verif Require Import Base Constraints Guidelines Search Objectives Repair10 RepairDiso Membrane Flexural Abdalla10 RepairMp.
Local Open Scope Z_scope.

Section RepairSs.
Variable c : cons.
Variable cos_sin : Z -> nat -> Q.
(** the distance of the in-plane lamination parameters to the region of the 10% rule of Abdalla *)
Variable distA : vec -> Q.
(** weighting_finalA, weighting_finalD, lampam_target *)
Variables (wA wD target : list Q).
Variable p : rparams.

(** repair_ss.py 34-152: laminate, success, objective (present when obj_no_constraints is given).
    The counts of objective calls (count_obj) are left out. Line 139 calls objectives with the
    keyword lampam_target, which objectives.py 10-16 does not have: TypeError. *)
Definition repair_ss (with_obj : bool) (ss : list Z) : result (list Z * bool * option Q) :=
  let m := calc_mini_10 c (length ss) in
  do r <- repair_10_bal_all c cos_sin distA (r_fuel p) ss m;
  do l <- repair_membrane c cos_sin distA (vec_from 0 wA) (vec_from 0 target) (r_membrane p) (r_fuel p) (r_p_A p) (fst r) (snd r) m;
  do o <- repair_diso_contig_list c (r_n_D1 p) l;
  let '(s, _, outward, _) := o in
  if negb outward then Ok (ss, false, if with_obj then Some 10000000000%Q else None)
  else
    do t <- repair_flexural c cos_sin (vec_from 0 wD) (vec_from 8 target) false (r_flexural p) (r_n_D2 p) (r_n_D3 p) s;
    if with_obj then Err TypeError else Ok (t, true, None).
End RepairSs.
