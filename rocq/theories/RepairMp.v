(* RepairMp.v - model of src/RELAY/repair_reference_panel.py 22-131 and src/RELAY/repair_mp.py
   19-113: the repair of a multi-panel design, in the order of the panels of the blending strip
   (multipanel.reduced). A table has one row per panel. calc_lampam is a parameter; the
   trigonometric table, the distance to the region of the 10% rule of Abdalla too. The number
   of rounds of the loops of steps 4.1.1 and 4.1.2 is bounded by a parameter. Definitions
   only. *)
From Verif Require Import Base Constraints Guidelines Spacing Strip Format Repair10 RepairDiso Membrane Flexural Redesign Abdalla10.
Local Open Scope Z_scope.

(** the attributes of Parameters that are used *)
Record rparams := {
  r_membrane : bool;          (* repair_membrane_switch *)
  r_flexural : bool;          (* repair_flexural_switch *)
  r_p_A : Q; r_n_D1 : nat; r_n_D2 : nat; r_n_D3 : nat;
  r_local : nat; r_global : nat;     (* local_node_limit2, global_node_limit2 *)
  r_fuel : nat }.

Section RepairMp.
Variable c : cons.
Variable st : strip.
Variable cos_sin : Z -> nat -> Q.
Variable lampam : list Z -> list Q.                  (* calc_lampam of a laminate *)
Variable distA : vec -> Q.                           (* calc_distance_Abdalla *)
Variables (targets weights : list (list Q)).         (* lampam_target, lampam_weightings of the panels *)
Variables (weightsA weightsD : list (list Q)).       (* lampam_weightingsA, lampam_weightingsD *)
Variable panel_weightings : list Q.                  (* actual_panel_weightings *)
Variables (plies : list Z) (ref : nat).              (* n_plies_in_panels, ind_ref *)
Variable p : rparams.
Variable pdl : list (list Z).                        (* reduced_pdl *)

(** entries [k:] of a list as a vector *)
Definition vec_from (k : nat) (l : list Q) : vec := fun i => nth (k + i) l 0%Q.
Definition dist (l : list Q) : Q := distA (vec_from 0 l).

(** the lamination parameters of an in-plane balance check: entries 2 and 3 *)
Definition lampamA34 (ss : list Z) : Q * Q := (nth 2 (lampam ss) 0%Q, nth 3 (lampam ss) 0%Q).

(** (reduced_ss[ind_ref] != ss_ref).any(); stacks of different lengths differ (numpy then
    compares to a scalar) *)
Definition differs (l m : list Z) : bool := negb (if list_eq_dec Z.eq_dec l m then true else false).

(** repair_reference_panel.py 22-131: success, lamination parameters, table, stacks *)
Definition repair_reference_panel (ss : list (list Z)) : result (bool * list (list Q) * list (list Z) * list (list Z)) :=
  do ss_ref <- row ss ref;
  do target <- row targets ref; do wA <- row weightsA ref; do wD <- row weightsD ref;
  let m := calc_mini_10 c (length ss_ref) in
  do r <- repair_10_bal_all c cos_sin distA (r_fuel p) ss_ref m;
  do l <- repair_membrane c cos_sin distA (vec_from 0 wA) (vec_from 0 target) (r_membrane p) (r_fuel p) (r_p_A p) (fst r) (snd r) m;
  do o <- repair_diso_contig_list c (r_n_D1 p) l;
  let '(s, _, outward, _) := o in
  do sst1 <- convert_ss_ref_to_reduced_sst s ref pdl ss;
  if negb outward then Ok (false, map lampam ss, sst1, ss)
  else
    let ss1 := convert_sst_to_ss sst1 in
    do t <- repair_flexural c cos_sin (vec_from 0 wD) (vec_from 8 target) true (r_flexural p) (r_n_D2 p) (r_n_D3 p) s;
    do sst2 <- convert_ss_ref_to_reduced_sst t ref pdl ss1;
    let ss2 := convert_sst_to_ss sst2 in
    do _ <- check_lay_up_rules lampamA34 t c false false false false None;
    do back <- row ss2 ref;
    do _ <- guard (differs back t) (Raised RefStackChanged);
    Ok (true, map lampam ss2, sst2, ss2).

(** lines 106-110: the number of plies of every panel *)
Fixpoint ply_counts (i : nat) (l : list Z) (ss : list (list Z)) : result unit :=
  match l with
  | [] => Ok tt
  | n :: t => do s <- row ss i; do _ <- guard (negb (zlen s =? n)) (Raised WrongPlyCount); ply_counts (S i) t ss
  end.

(** repair_mp.py 19-113: success, stacks, table, layout, stage reached *)
Definition repair_mp (ss : list (list Z)) : result (bool * list (list Z) * list (list Z) * list (list Z) * nat) :=
  do r <- repair_reference_panel ss;
  let '(done, lps1, sst1, ss1) := r in
  if negb done then do sst <- convert_ss_to_sst ss1 pdl; Ok (false, ss1, sst, pdl, 1%nat)
  else
    do ss_ref <- row ss1 ref;
    do thin <- thin_table (sym c) plies ref;
    do r <- repair_thick_to_thin c st lampam dist targets weights panel_weightings plies ref (r_local p) (r_global p) thin (sst1, lps1, ss1);
    let '(done, (sst2, lps2, ss2)) := r in
    if negb done then do sst <- convert_ss_to_sst ss2 pdl; Ok (false, ss2, sst, pdl, 2%nat)
    else
      do s <- row ss2 ref; do _ <- guard (differs s ss_ref) (Raised RefStackChanged);
      do thick <- thick_table (sym c) plies ref;
      do r <- repair_thin_to_thick c st lampam dist targets weights panel_weightings plies ref (r_local p) (r_global p) thick (sst2, lps2, ss2);
      let '(done, (sst3, lps3, ss3)) := r in
      if negb done then do sst <- convert_ss_to_sst ss3 pdl; Ok (false, ss3, sst, pdl, 3%nat)
      else
        do s <- row ss3 ref; do _ <- guard (differs s ss_ref) (Raised RefStackChanged);
        do _ <- ply_counts 0 plies ss3;
        Ok (true, ss3, sst3, pdl, 4%nat).
End RepairMp.
