(* Final.v - model of the end of src/BELLA/optimiser_with_one_pdl.py: lines 372-512 (every design
   of the last level of the search is repaired and evaluated) and 514-669 (the best one is
   selected, checked and reported). The panels are those of the blending strip
   (multipanel.reduced); the copies to the other panels (extend_after_guide_based_blending,
   Strip.v) are left out, and so are penalty_oopo and penalty_spacing, which are only reported
   (Stiffness.v, Spacing.v). calc_lampam, the 10% penalty of a laminate and the repair are
   parameters. Floats are exact rationals. Definitions only. *)
From Verif Require Import Base Constraints Guidelines Spacing Strip Search Objectives Stiffness.
Local Open Scope Z_scope.

(** a panel: n_plies, has_middle_ply, middle_ply_index *)
Record fpanel := { f_plies : Z; f_middle : bool; f_middle_index : nat }.
(** what repair_mp returns: success, stacks, table, layout, stage *)
Record repaired := { x_done : bool; x_ss : list (list Z); x_sst : list (list Z); x_pdl : list (list Z); x_stage : nat }.

(** optimiser_with_one_pdl.py 408-440: the five values returned by repair_mp *)
Definition packed (x : result (bool * list (list Z) * list (list Z) * list (list Z) * nat)) : result repaired :=
  do r <- x; let '(d, ss, sst, pdl, stage) := r in Ok {| x_done := d; x_ss := ss; x_sst := sst; x_pdl := pdl; x_stage := stage |}.

Section Final.
Variable c : cons.
Variable panels : list fpanel.
Variable lampam : list Z -> list Q.
(** penalty of a laminate (with its lamination parameters) for the 10% rule: calc_penalty_10_ss or
    calc_penalty_10_pc *)
Variable pen10 : list Z -> list Q -> result Q.
Variables (targets weights : list (list Q)) (panel_weightings : list Q) (coeffs : coefficients).
Variable repair : list (list Z) -> result repaired.

(** np.delete(l, i) *)
Definition delete_at (i : nat) (l : list Z) : result (list Z) := if (i <? length l)%nat then Ok (del i l) else Err IndexError.

(** lines 380-405: the stack of a panel from its bottom and top parts *)
Definition full_stack (p : fpanel) (part : list Z * list Z) : result (list Z) :=
  do s <- (if sym c then
             let s := fst part ++ rev (fst part) in
             if f_middle p then delete_at (f_middle_index p) s else Ok s
           else Ok (fst part ++ snd part));
  do _ <- guard (negb (zlen s =? f_plies p)) (Raised WrongPlyCount);
  Ok s.
Fixpoint full_stacks (ps : list fpanel) (parts : list (list Z * list Z)) : result (list (list Z)) :=
  match ps, parts with
  | [], _ => Ok []
  | _ :: _, [] => Err IndexError
  | p :: ps', part :: parts' => do s <- full_stack p part; do r <- full_stacks ps' parts'; Ok (s :: r)
  end.

(** lines 44-45 norm_diso_contig, 439-451 and 573-585: violations over the number of plies *)
Definition over_plies (active : bool) (n : list Z) : list Q :=
  if (active && existsb (fun k => negb (k =? 0)) n)%bool then zip_with Qdiv (map inject_Z n) (map (fun p => inject_Z (f_plies p)) panels)
  else map (fun _ => 0%Q) panels.

(** lines 438-464 and 573-594: penalties for disorientation, contiguity, the 10% rule *)
Definition penalties_of (ss : list (list Z)) (lps : list (list Q)) : result (list Q * list Q * list Q) :=
  do n_diso <- calc_number_violations_diso_mp ss c;
  do n_contig <- calc_penalty_contig_mp ss c;
  do p10 <- mapM (fun x => pen10 (fst x) (snd x)) (List.combine ss lps);
  Ok (over_plies (diso c) n_diso, over_plies (contig c) n_contig, p10).

(** calc_obj_each_panel of lines 476-481 and 558-563 *)
Definition each_panel (lps : list (list Q)) : result (list Q) :=
  calc_obj_each_panel (map (fun x => (fst (fst x), snd (fst x), snd x)) (List.combine (List.combine lps targets) weights)).
(** calc_obj_multi_panel of lines 487-497 and 604-614; the penalty for balance is zero and those
    left out are 0 with the coefficient 0 *)
Definition with_penalties (obj : list Q) (p : list Q * list Q * list Q) : result Q :=
  let '(d, k, t) := p in
  calc_obj_multi_panel obj panel_weightings
    {| p_diso := AArr d; p_contig := AArr k; p_10 := AArr t; p_bal_ipo := AArr (map (fun _ => 0%Q) panels); p_oopo := ANum 0; p_weight := ANum 0 |}
    {| c_diso := c_diso coeffs; c_contig := c_contig coeffs; c_10 := c_10 coeffs; c_bal_ipo := c_bal_ipo coeffs; c_oopo := 0; c_weight := 0 |}.

Definition huge : Q := 10000000000.

(** lines 374-498: a design of the last level is repaired and evaluated *)
Record evaluated := { e_rep : repaired; e_lps : list (list Q); e_obj : list Q; e_total : Q }.
Definition evaluate (parts : list (list Z * list Z)) : result evaluated :=
  do stack <- full_stacks panels parts;
  do r <- repair stack;
  let lps := map lampam (x_ss r) in
  do p <- penalties_of (x_ss r) lps;
  do obj <- (if x_done r then each_panel lps else Ok (map (fun _ => huge) panels));
  do total <- (if forallb (fun x => negb (Qeq_bool x huge)) obj then with_penalties obj p else Ok huge);
  Ok {| e_rep := r; e_lps := lps; e_obj := obj; e_total := total |}.

(** lines 412-427: counts of the designs after each step *)
Record tally := { k_last : nat; k_ref : nat; k_thin : nat; k_thick : nat }.
Definition count_design (r : repaired) (k : tally) : tally :=
  if x_done r then {| k_last := S (k_last k); k_ref := S (k_ref k); k_thin := S (k_thin k); k_thick := S (k_thick k) |}
  else if (x_stage r =? 1)%nat then {| k_last := S (k_last k); k_ref := k_ref k; k_thin := k_thin k; k_thick := k_thick k |}
  else if (x_stage r =? 2)%nat then {| k_last := S (k_last k); k_ref := S (k_ref k); k_thin := k_thin k; k_thick := k_thick k |}
  else {| k_last := S (k_last k); k_ref := S (k_ref k); k_thin := S (k_thin k); k_thick := k_thick k |}.

(** lines 630-669: the report *)
Record report := { o_ss : list (list Z); o_lps : list (list Q); o_obj : list Q; o_total : Q; o_pens : list Q * list Q * list Q;
                   o_ipo : list Q; o_sst : list (list Z); o_pdl : list (list Z); o_counts : tally }.

(** line 552: abs(a - b).all() < 1e-13 is true unless all the entries differ *)
Definition all_differ (a b : list (list Q)) : bool :=
  forallb (fun p => forallb (fun x => negb (Qeq_bool (fst x) (snd x))) (List.combine (fst p) (snd p))) (List.combine a b).
(** lines 566 and 616: (a - b > 1e-10).any() *)
Definition exceeds (a b : Q) : bool := Qltb (b + (1 # 10000000000)) a.

(** lines 514-669. The stacks (and the ply counts, used for the 10% penalty) are those of all the
    designs; with save_success_rate the other tables only hold the designs with an objective
    below 1e10 *)
Definition select (save_success_rate : bool) (all : list evaluated) (k : tally) : result (option report) :=
  let kept := if save_success_rate then filter (fun e => Qltb (e_total e) huge) all else all in
  match kept with
  | [] => Ok None
  | _ =>
    do index <- argmin (map e_total kept);
    do e <- row kept index;
    do x <- row all index;
    let ss := x_ss (e_rep x) in
    do _ <- mapM (fun q => guard (negb (zlen (fst q) =? f_plies (snd q))) (Raised WrongPlyCount)) (List.combine ss panels);
    do _ <- guard (all_differ (e_lps e) (map lampam ss)) (Raised Other);
    do obj <- each_panel (e_lps e);
    do _ <- guard (existsb (fun q => exceeds (fst q) (snd q)) (List.combine obj (e_obj e))) (Raised Other);
    do p <- penalties_of ss (e_lps e);
    do total <- with_penalties (e_obj e) p;
    do _ <- guard (exceeds total (e_total e)) (Raised Other);
    do ipo <- calc_penalty_ipo_rows (e_lps e) 1;
    Ok (Some {| o_ss := ss; o_lps := e_lps e; o_obj := e_obj e; o_total := e_total e; o_pens := p; o_ipo := ipo;
                o_sst := x_sst (e_rep e); o_pdl := x_pdl (e_rep e); o_counts := k |})
  end.

Definition finish (save_success_rate : bool) (designs : list (list (list Z * list Z))) : result (option report) :=
  do all <- mapM evaluate designs;
  let k := fold_left (fun k e => count_design (e_rep e) k) all {| k_last := 0; k_ref := 0; k_thin := 0; k_thick := 0 |} in
  select save_success_rate all k.
End Final.
