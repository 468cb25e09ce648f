(* Pipeline.v - model of src/BELLA/optimiser_with_one_pdl.py 35-669 and of the loop of
   src/BELLA/optimiser.py 104-135: for each initial ply-drop layout the angles are chosen by beam
   search (Beam.v, with the matrix of Moments.v), the designs left are repaired (RepairMp.v) and
   evaluated (Final.v), and the best of the designs of the layouts is reported (Search.v).
   The panels are those of the blending strip, thinnest first. Parameters: calc_lampam, the
   trigonometric table and the two calculations of the 10% rule. Floats are exact rationals.
   Definitions only. *)
From Verif Require Import Base Constraints Guidelines Spacing Strip Moments Search Beam Objectives Membrane RepairMp Final Levels.
Local Open Scope Z_scope.

Record bella := {
  b_cons : cons; b_strip : strip;
  b_plies : list Z; b_ref : nat;                  (* ply counts, reference panel *)
  b_cos_sin : Z -> nat -> Q;
  b_lampam : list Z -> list Q;
  b_distA : vec -> Q;
  b_pen10 : list Z -> list Q -> result Q;
  b_targets : list (list Q); b_weights : list (list Q);
  b_panel_weightings : list Q; b_coeffs : coefficients;
  b_rparams : rparams;
  b_local : nat; b_local_final : nat; b_global : nat; b_global_final : nat;
  b_save_success_rate : bool }.

(** panels.py 212-213: lampam_weightingsA, lampam_weightingsD *)
Definition b_weightsA (b : bella) : list (list Q) := map (firstn 4) (b_weights b).
Definition b_weightsD (b : bella) : list (list Q) := map (fun w => firstn 4 (skipn 8 w)) (b_weights b).

Definition n_thickest (b : bella) : nat := Z.to_nat (last (b_plies b) 0).
(** ply_order[-1] (line 48) *)
Definition levels (b : bella) : list nat := ply_order (sym (b_cons b)) (n_thickest b).

(** panels.py: n_plies, has_middle_ply, middle_ply_index *)
Definition panel_of (c : cons) (n : Z) : fpanel :=
  {| f_plies := n; f_middle := (sym c && Z.odd n)%bool; f_middle_index := Z.to_nat ((n + 1) / 2) |}.
Definition final_panels (b : bella) : list fpanel := map (panel_of (b_cons b)) (b_plies b).

Definition has_size (n : nat) {A} (l : list A) : bool := Nat.eqb (length l) n.

(** lines 48-101: the search; of the layout the columns of [levels] are read. The code finds
    vectors of wrong sizes when it evaluates the first node (ValueError), here they are
    found before the search *)
Definition search_problem (b : bella) (pdl : list (list Z)) : result problem :=
  let c := b_cons b in
  let searched := map (firstn (length (levels b))) pdl in
  do mat <- mapM (fun rn => lampam_matrix (fst rn) (delta_lampams (sym c) (b_cos_sin b) (Z.to_nat (snd rn)))) (List.combine searched (b_plies b));
  do tables <- mapM (fun x => level_weightings (sym c) (Z.to_nat (snd (fst x))) (fst (fst x)) (snd x)) (List.combine (List.combine searched (b_plies b)) (b_weights b));
  do _ <- guard (negb (forallb (has_size 12) (b_targets b) && forallb (has_size 12) (b_weights b) && has_size (length searched) (b_targets b)
                       && has_size (length searched) (b_weights b) && has_size (length searched) (b_panel_weightings b))) ValueError;
  Ok {| p_cons := c; p_n := length (levels b); p_middle := existsb f_middle (final_panels b); p_thick := (length (b_plies b) - 1)%nat;
        p_pdl := searched; p_mat := mat; p_score := node_score (b_targets b) tables (b_panel_weightings b) (b_coeffs b);
        p_local := b_local b; p_local_final := b_local_final b; p_global := b_global b; p_global_final := b_global_final b |}.

(** the repair of a design of the layout *)
Definition repair_of (b : bella) (pdl ss : list (list Z)) : result repaired :=
  packed (repair_mp (b_cons b) (b_strip b) (b_cos_sin b) (b_lampam b) (b_distA b) (b_targets b) (b_weights b) (b_weightsA b) (b_weightsD b)
    (b_panel_weightings b) (b_plies b) (b_ref b) (b_rparams b) pdl ss).

(** BELLA_optimiser_one_pdl *)
Definition optimise_layout (b : bella) (pdl : list (list Z)) : result (option report) :=
  do pb <- search_problem b pdl;
  do t <- beam pb (levels b);
  finish (b_cons b) (final_panels b) (b_lampam b) (b_pen10 b) (b_targets b) (b_weights b) (b_panel_weightings b) (b_coeffs b)
    (repair_of b pdl) (b_save_success_rate b) (t_ss t).

(** optimiser.py 104-121: the runs of the layouts until an objective is zero; the layouts that
    are not tried then leave no result *)
Fixpoint runs (b : bella) (pdls : list (list (list Z))) : result (list (outcome (option report))) :=
  match pdls with
  | [] => Ok []
  | pdl :: rest =>
    do r <- optimise_layout b pdl;
    match r with
    | None => do l <- runs b rest; Ok (None :: l)
    | Some o =>
      if Qeq_bool (o_total o) 0 then Ok (Some (o_total o, Some o) :: map (fun _ => None) rest)
      else do l <- runs b rest; Ok (Some (o_total o, Some o) :: l)
    end
  end.

(** the reported design, if any, and the reported objective (None: NaN) *)
Definition optimise (b : bella) (pdls : list (list (list Z))) : result (option report * option Q) :=
  do l <- runs b pdls;
  bella_optimiser None l.
