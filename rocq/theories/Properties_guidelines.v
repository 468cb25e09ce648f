(* Properties_guidelines.v - theorems for C01..C09 and C12. *)
From Verif Require Import Base Uniq Constraints Guidelines SpecGuidelines
  GuidelinesProofs ConstraintsProofs GateProofs.

(** example constraint sets used in the non-vacuity examples *)
Definition args_full : cargs := {|
  a_sym := true; a_bal := true; a_oopo := false; a_dam_tol := true;
  a_rule_10_percent := true; a_rule_10_Abdalla := false; a_percent_Abdalla := 0;
  a_combine_45_135 := true; a_calc_combine_45_135 := true;
  a_percent_0 := 10; a_percent_45 := 10; a_percent_90 := 10; a_percent_135 := 10;
  a_percent_45_135 := 0;
  a_diso := true; a_contig := true; a_n_contig := 3; a_delta_angle := 45;
  a_dam_tol_rule := 2; a_set_of_angles := [0; 45; 90; -45]; a_min_drop := 2;
  a_pdl_spacing := true; a_covering := true; a_n_covering := 1 |}.
Definition stack_ok : list Z :=
  [45; -45; 0; 45; 90; -45; 0; 0; -45; 90; 45; 0; -45; 45].

(* ---------------- C01 ---------------- *)
Theorem C01_is_diso_mod_180 : forall a b delta,
  angle_ok a -> angle_ok b -> (is_diso a b delta = true <-> diso_ok delta a b).
Proof. exact is_diso_spec. Qed.
Print Assumptions C01_is_diso_mod_180.

Theorem C01_is_diso_symmetric : forall a b delta, is_diso a b delta = is_diso b a delta.
Proof. exact is_diso_comm. Qed.
Print Assumptions C01_is_diso_symmetric.

Theorem C01_is_diso_delta_angle : forall a b delta,
  is_diso a b delta = true <-> calc_delta_angle a b <= delta.
Proof. exact is_diso_delta. Qed.
Print Assumptions C01_is_diso_delta_angle.

Theorem C01_delta_angle_is_distance : forall a b,
  angle_ok a -> angle_ok b ->
  (exists k, calc_delta_angle a b = Z.abs (a - b + 180 * k)) /\
  (forall k, calc_delta_angle a b <= Z.abs (a - b + 180 * k)) /\
  0 <= calc_delta_angle a b <= 90.
Proof. exact calc_delta_angle_spec. Qed.
Print Assumptions C01_delta_angle_is_distance.

Theorem C01_signed_delta_angle : forall a b,
  angle_ok a -> angle_ok b ->
  -90 < calc_delta_angle_2 a b <= 90 /\
  (exists k, calc_delta_angle_2 a b = b - a + 180 * k) /\
  Z.abs (calc_delta_angle_2 a b) = calc_delta_angle a b.
Proof. exact calc_delta_angle_2_spec. Qed.
Print Assumptions C01_signed_delta_angle.

(** The docstring says True "if one angle is missing" (666); it is not so. *)
Theorem C01_missing_ply_refuted : exists a delta, angle_ok a /\ 0 <= delta <= 90 /\
  is_diso a 666 delta = false.
Proof. exists 0, 45; repeat split; vm_compute; congruence. Qed.
Print Assumptions C01_missing_ply_refuted.

Example C01_example : angle_ok 80 /\ angle_ok (-70) /\ is_diso 80 (-70) 45 = true
  /\ is_diso 45 (-30) 45 = false.
Proof. unfold angle_ok; repeat split; try lia; reflexivity. Qed.

(* ---------------- C02 ---------------- *)
Theorem C02_is_diso_ss_all_pairs : forall ss delta, Forall angle_ok ss ->
  exists b, is_diso_ss ss delta false None None = Ok b /\
            (b = true <-> diso_stack delta ss).
Proof. exact is_diso_ss_off. Qed.
Print Assumptions C02_is_diso_ss_all_pairs.

Theorem C02_is_diso_ss_inner_pairs : forall ss delta rule,
  Forall angle_ok ss -> (rule = 2 \/ rule = 3)%nat ->
  exists b, is_diso_ss ss delta true (Some rule) None = Ok b /\
            (b = true <-> forall m, inner_of ss m -> diso_stack delta m).
Proof. exact is_diso_ss_inner. Qed.
Print Assumptions C02_is_diso_ss_inner_pairs.

Theorem C02_penalty_counts_violations : forall ss c m,
  Forall angle_ok ss -> covered_plies c ss m -> m <> [] ->
  exists n, calc_n_penalty_diso_ss ss c = Ok n /\ counts n (diso_bad_at (delta_angle c) m).
Proof. exact diso_penalty_covered. Qed.
Print Assumptions C02_penalty_counts_violations.

Theorem C02_penalty_mp_counts_violations : forall sss c,
  Forall (Forall angle_ok) sss -> (forall ss, In ss sss -> ~ covered_plies c ss []) ->
  exists r, calc_number_violations_diso_mp sss c = Ok r /\
    Forall2 (fun ss n => forall m, covered_plies c ss m ->
                          counts n (diso_bad_at (delta_angle c) m)) sss r.
Proof. exact diso_penalty_mp_covered. Qed.
Print Assumptions C02_penalty_mp_counts_violations.

Theorem C02_no_violation_iff_feasible : forall delta l, Forall angle_ok l ->
  ((forall i, ~ diso_bad_at delta l i) <-> diso_stack delta l).
Proof. exact diso_bad_stack. Qed.
Print Assumptions C02_no_violation_iff_feasible.

(** Finding: with damage tolerance rule 1 the test accepts every stack. *)
Theorem C02_rule1_accepts_everything : forall ss delta,
  is_diso_ss ss delta true (Some 1%nat) None = Ok true.
Proof. exact is_diso_ss_rule1. Qed.
Print Assumptions C02_rule1_accepts_everything.

Theorem C02_rule1_refuted : exists ss m delta, Forall angle_ok ss /\
  inner_of ss m /\ ~ diso_stack delta m /\ ~ diso_stack delta ss /\
  is_diso_ss ss delta true (Some 1%nat) None = Ok true.
Proof.
  exists [45; 0; 90; 0; -45], [0; 90; 0], 45.
  assert (N : ~ diso_ok 45 0 90).
  { rewrite <- is_diso_spec by (unfold angle_ok; lia); vm_compute; congruence. }
  split; [repeat constructor; lia|].
  split; [left; exists 45, (-45); reflexivity|].
  split; [|split; [|reflexivity]]; intros H; apply N, H;
    [exists [], [0] | exists [45], [0; -45]]; reflexivity.
Qed.
Print Assumptions C02_rule1_refuted.

Example C02_example :
  Forall angle_ok stack_ok /\ is_diso_ss stack_ok 45 true (Some 2%nat) None = Ok true /\
  is_diso_ss stack_ok 45 false None None = Ok false.
Proof. split; [repeat constructor; lia|]; vm_compute; auto. Qed.

(* ---------------- C03 ---------------- *)
Theorem C03_is_contig_iff_no_long_block : forall n l, (2 <= n <= 6)%nat ->
  exists b, is_contig l n = Ok b /\ (b = true <-> contig_stack n l).
Proof. exact is_contig_spec. Qed.
Print Assumptions C03_is_contig_iff_no_long_block.

Theorem C03_other_limits_raise : forall n l,
  (6 < n < length l)%nat \/ (n = 0 /\ 0 < length l)%nat ->
  is_contig l n = Err (Raised NotCoded).
Proof. exact is_contig_raises. Qed.
Print Assumptions C03_other_limits_raise.

Theorem C03_internal_contig2_iff_no_long_block : forall c l,
  contig c = true -> (2 <= n_contig c <= 6)%nat ->
  exists b, internal_contig2 l c = Ok b /\ (b = true <-> contig_stack (n_contig c) l).
Proof. exact internal_contig2_spec. Qed.
Print Assumptions C03_internal_contig2_iff_no_long_block.

Example C03_example : is_contig [0; 45; 45; 45; 0; 0; 0; 0] 4 = Ok true /\
  is_contig [0; 45; 45; 45; 0; 0; 0; 0] 3 = Ok false.
Proof. vm_compute; auto. Qed.

(* ---------------- C04 ---------------- *)
Theorem C04_penalty_ss_counts_blocks : forall ss c m,
  (2 <= n_contig c <= 6)%nat -> covered_plies c ss m ->
  exists n, calc_penalty_contig_ss ss c = Ok n /\
            counts n (fun i => block_at (S (n_contig c)) i m).
Proof. exact contig_penalty_covered. Qed.
Print Assumptions C04_penalty_ss_counts_blocks.

Theorem C04_penalty_mp_counts_blocks : forall sss c, (2 <= n_contig c <= 6)%nat ->
  exists r, calc_penalty_contig_mp sss c = Ok r /\
    Forall2 (fun ss n => forall m, covered_plies c ss m ->
                          counts n (fun i => block_at (S (n_contig c)) i m)) sss r.
Proof. exact contig_penalty_mp_covered. Qed.
Print Assumptions C04_penalty_mp_counts_blocks.

Theorem C04_covered_plies_defined : forall c ss, exists m, covered_plies c ss m.
Proof. exact covered_exists. Qed.
Print Assumptions C04_covered_plies_defined.

Theorem C04_zero_iff_feasible : forall n l,
  counts 0 (fun i => block_at (S n) i l) <-> contig_stack n l.
Proof. exact contig_counts_zero. Qed.
Print Assumptions C04_zero_iff_feasible.

Theorem C04_contig_vector : forall n l, (2 <= n <= 6)%nat ->
  exists v, calc_contig_vector l n = Ok v /\
    length v = (length l - n)%nat /\
    forall i, (i < length l - n)%nat ->
      (nth i v 0 = 1 /\ block_at (S n) i l) \/ (nth i v 0 = 0 /\ ~ block_at (S n) i l).
Proof. exact calc_contig_vector_spec. Qed.
Print Assumptions C04_contig_vector.

(** Finding: the gate tests the untrimmed stack, the penalty the trimmed one. *)
Theorem C04_gate_and_penalty_disagree_refuted : exists c ss,
  mk_cons {| a_sym := false; a_bal := false; a_oopo := false; a_dam_tol := true;
     a_rule_10_percent := false; a_rule_10_Abdalla := false; a_percent_Abdalla := 0;
     a_combine_45_135 := true; a_calc_combine_45_135 := true;
     a_percent_0 := 0; a_percent_45 := 0; a_percent_90 := 0; a_percent_135 := 0;
     a_percent_45_135 := 0; a_diso := false; a_contig := true; a_n_contig := 2;
     a_delta_angle := 45; a_dam_tol_rule := 3; a_set_of_angles := [0; 45; 90; -45];
     a_min_drop := 1; a_pdl_spacing := false; a_covering := true; a_n_covering := 1 |} = Ok c /\
  calc_penalty_contig_ss ss c = Ok 0 /\ is_contig ss (n_contig c) = Ok false.
Proof.
  eexists; exists [45; 45; 45; 0; -45; -45]; split; [vm_compute; reflexivity|].
  vm_compute; auto.
Qed.
Print Assumptions C04_gate_and_penalty_disagree_refuted.

Example C04_example : exists c, mk_cons args_full = Ok c /\ (2 <= n_contig c <= 6)%nat /\
  calc_penalty_contig_ss [45; -45; 0; 0; 0; 0; 0; 45; -45] c = Ok 2.
Proof.
  eexists; split; [vm_compute; reflexivity|].
  split; [cbn; lia | vm_compute; reflexivity].
Qed.

(* ---------------- C05 ---------------- *)
Theorem C05_is_balanced_iff : forall l, is_balanced l = true <-> balanced l.
Proof. exact is_balanced_spec. Qed.
Print Assumptions C05_is_balanced_iff.

Theorem C05_penalty_zero_iff_balanced : forall a c ss areas,
  mk_cons a = Ok c -> (forall x, In x ss -> In x (set_of_angles c)) -> (0 < areas)%Q ->
  exists p, calc_penalty_bal (ply_counts c ss) c areas = Ok p /\
    (0 <= p)%Q /\ ((p == 0)%Q <-> balanced ss).
Proof.
  exact (fun a c ss areas H => calc_penalty_bal_spec c ss areas (mk_cons_consistent a c H)).
Qed.
Print Assumptions C05_penalty_zero_iff_balanced.

Example C05_example : is_balanced [0; 45; 90; -45; 30; -30] = true /\
  is_balanced [0; 45; 90; -45; 30] = false.
Proof. vm_compute; auto. Qed.

Example C05_example_penalty : exists c, mk_cons args_full = Ok c /\
  calc_penalty_bal (ply_counts c [45; 45; -45; 0]) c 1 = Ok (1 # 4)%Q.
Proof. eexists; split; vm_compute; reflexivity. Qed.

(* ---------------- C06 ---------------- *)
Theorem C06_dam_tol_inactive : forall ss c, dam_tol c = false -> is_dam_tol ss c = Ok true.
Proof. exact is_dam_tol_off. Qed.
Print Assumptions C06_dam_tol_inactive.

Theorem C06_dam_tol_rule_1 : forall ss c,
  dam_tol c = true -> dam_tol_rule c = 1%nat -> ss <> [] ->
  exists b, is_dam_tol ss c = Ok b /\ (b = true <-> damtol1 ss).
Proof. exact is_dam_tol_1. Qed.
Print Assumptions C06_dam_tol_rule_1.

Theorem C06_dam_tol_rule_2 : forall ss c,
  dam_tol c = true -> dam_tol_rule c = 2%nat -> (2 <= length ss)%nat ->
  exists b, is_dam_tol ss c = Ok b /\ (b = true <-> damtol2 ss).
Proof. exact is_dam_tol_2. Qed.
Print Assumptions C06_dam_tol_rule_2.

Theorem C06_dam_tol_rule_3 : forall ss c,
  dam_tol c = true -> dam_tol_rule c = 3%nat -> (2 <= length ss)%nat ->
  exists b, is_dam_tol ss c = Ok b /\ (b = true <-> damtol3 ss).
Proof. exact is_dam_tol_3. Qed.
Print Assumptions C06_dam_tol_rule_3.

Example C06_example : exists c, mk_cons args_full = Ok c /\ dam_tol c = true /\
  dam_tol_rule c = 2%nat /\ is_dam_tol stack_ok c = Ok true /\
  is_dam_tol [45; 45; 0; -45; 45] c = Ok false.
Proof. eexists; split; [vm_compute; reflexivity|]; vm_compute; auto. Qed.

(* ---------------- C07 ---------------- *)
Theorem C07_ten_percent_stack : forall c ss eq45 eq090, ss <> [] ->
  exists b, is_ten_percent_stack c ss eq45 eq090 = Ok b /\
            (b = true <-> ten_spec eps15 eq45 eq090 c ss).
Proof. exact is_ten_percent_stack_spec. Qed.
Print Assumptions C07_ten_percent_stack.

Theorem C07_penalty_zero_iff_minima_reached : forall a c ss,
  mk_cons a = Ok c -> ss <> [] ->
  exists p, calc_penalty_10_ss ss c = Ok p /\ (0 <= p)%Q /\
    ((p == 0)%Q <-> ten_spec 0 false false c ss).
Proof.
  exact (fun a c ss H => calc_penalty_10_ss_spec c ss (mk_cons_consistent a c H)).
Qed.
Print Assumptions C07_penalty_zero_iff_minima_reached.

Theorem C07_ply_count_penalty_agrees : forall a c ss areas,
  mk_cons a = Ok c -> (forall x, In x ss -> In x (set_of_angles c)) -> ss <> [] ->
  exists p q, calc_penalty_10_pc (ply_counts c ss) c areas = Ok p /\
    calc_penalty_10_ss ss c = Ok q /\ (p == areas * q)%Q.
Proof.
  exact (fun a c ss areas H => calc_penalty_10_pc_spec c ss areas (mk_cons_consistent a c H)).
Qed.
Print Assumptions C07_ply_count_penalty_agrees.

Example C07_example : exists c, mk_cons args_full = Ok c /\
  is_ten_percent_stack c stack_ok false false = Ok true /\
  is_ten_percent_stack c [0; 45; 90; 0; 0; 45] false false = Ok false.
Proof. eexists; split; [vm_compute; reflexivity|]; vm_compute; auto. Qed.

(* ---------------- C08 ---------------- *)
Theorem C08_even_symmetric_partial : forall c half queue eq45 eq090 hole,
  sym c = true -> ~ In hole [0; 45; 90; -45] -> half <> [] \/ queue <> [] ->
  let partial := half ++ repeat hole (length queue) ++ repeat hole (length queue) ++ rev half in
  let full := half ++ queue ++ rev queue ++ rev half in
  is_ten_percent_queue c partial queue eq45 eq090 = is_ten_percent_stack c full eq45 eq090.
Proof. exact ten_queue_sym_even. Qed.
Print Assumptions C08_even_symmetric_partial.

Theorem C08_asymmetric_partial : forall c partial queue full eq45 eq090 hole,
  sym c = false -> ~ In hole [0; 45; 90; -45] ->
  length full = length partial ->
  (forall a, a <> hole -> count a full = count a partial + count a queue) ->
  is_ten_percent_queue c partial queue eq45 eq090 = is_ten_percent_stack c full eq45 eq090.
Proof. exact ten_queue_asym. Qed.
Print Assumptions C08_asymmetric_partial.

(** Finding: with an odd number of plies the "middle" ply is read at index 1. *)
Theorem C08_odd_symmetric_refuted : exists c half queue mid,
  mk_cons args_full = Ok c /\ sym c = true /\
  let partial := half ++ repeat 666 (length queue) ++ [mid]
                 ++ repeat 666 (length queue) ++ rev half in
  let full := half ++ queue ++ [mid] ++ rev queue ++ rev half in
  is_ten_percent_queue c partial queue false false = Ok false /\
  is_ten_percent_stack c full false false = Ok true.
Proof.
  eexists; exists [45], [-45; 0], 90; split; [vm_compute; reflexivity|].
  vm_compute; auto.
Qed.
Print Assumptions C08_odd_symmetric_refuted.

Theorem C08_odd_symmetric_false_accept_refuted : exists c half queue mid,
  mk_cons args_full = Ok c /\ sym c = true /\
  let partial := half ++ repeat 666 (length queue) ++ [mid]
                 ++ repeat 666 (length queue) ++ rev half in
  let full := half ++ queue ++ [mid] ++ rev queue ++ rev half in
  is_ten_percent_queue c partial queue false false = Ok true /\
  is_ten_percent_stack c full false false = Ok false.
Proof.
  eexists; exists [0; 90; 0; 0; 0; 0; 0; 0], [45; 45; -45; -45], 0; split; [vm_compute; reflexivity|].
  vm_compute; auto.
Qed.
Print Assumptions C08_odd_symmetric_false_accept_refuted.

Example C08_example : exists c, mk_cons args_full = Ok c /\ sym c = true /\
  is_ten_percent_queue c [45; -45; 666; 666; 666; 666; -45; 45] [0; 90] false false = Ok true.
Proof. eexists; split; [vm_compute; reflexivity|]; vm_compute; auto. Qed.

(* ---------------- C09 ---------------- *)
Theorem C09_gate_iff : forall a c orc ss no_ipo no_bal eq45 eq090 n_plies,
  mk_cons a = Ok c -> (2 <= length ss)%nat -> Forall angle_ok ss ->
  (contig c = true -> (2 <= n_contig c <= 6)%nat) ->
  (check_lay_up_rules orc ss c no_ipo no_bal eq45 eq090 n_plies = Ok tt <->
   ((forall n, n_plies = Some n -> length ss = n) /\
    (dam_tol c = true -> damtol_spec c ss) /\
    (bal c = true -> no_bal = false -> balanced ss) /\
    (ipo c = true -> no_ipo = false -> ipo_small (orc ss)) /\
    (diso c = true -> diso_covered c ss) /\
    (contig c = true -> contig_stack (n_contig c) ss) /\
    (rule_10_percent c = true -> ten_spec eps15 eq45 eq090 c ss))).
Proof.
  exact (fun a c orc ss ni nb e4 e0 n H =>
           check_lay_up_rules_spec orc ss c ni nb e4 e0 n (mk_cons_consistent a c H)).
Qed.
Print Assumptions C09_gate_iff.

(** Finding: under damage tolerance rule 1 the gate lets disoriented stacks through. *)
Definition args_rule1 : cargs := {|
  a_sym := true; a_bal := true; a_oopo := false; a_dam_tol := true;
  a_rule_10_percent := false; a_rule_10_Abdalla := false; a_percent_Abdalla := 0;
  a_combine_45_135 := true; a_calc_combine_45_135 := true;
  a_percent_0 := 0; a_percent_45 := 0; a_percent_90 := 0; a_percent_135 := 0;
  a_percent_45_135 := 0;
  a_diso := true; a_contig := true; a_n_contig := 3; a_delta_angle := 45;
  a_dam_tol_rule := 1; a_set_of_angles := [0; 45; 90; -45]; a_min_drop := 2;
  a_pdl_spacing := false; a_covering := true; a_n_covering := 1 |}.

Theorem C09_gate_rule1_refuted : exists c ss,
  mk_cons args_rule1 = Ok c /\ diso c = true /\ Forall angle_ok ss /\
  check_lay_up_rules (fun _ => (0, 0)%Q) ss c false false false false None = Ok tt /\
  exists m, inner_of ss m /\ ~ diso_stack (delta_angle c) m.
Proof.
  eexists; exists [45; 0; 90; -45; -45; 90; 0; 45]; split; [vm_compute; reflexivity|].
  split; [reflexivity|]. split; [repeat constructor; lia|].
  split; [vm_compute; reflexivity|].
  exists [0; 90; -45; -45; 90; 0]; split; [left; exists 45, 45; reflexivity|].
  intros H; specialize (H 0 90 ltac:(exists [], [-45; -45; 90; 0]; reflexivity)).
  apply is_diso_spec in H; [vm_compute in H; discriminate | |]; unfold angle_ok; lia.
Qed.
Print Assumptions C09_gate_rule1_refuted.

(** Finding: with the Abdalla form of the 10% rule the gate checks nothing; a
    laminate of 0-degree plies only (lamination parameters 1, 1) passes it. *)
Definition args_abdalla : cargs := {|
  a_sym := true; a_bal := true; a_oopo := false; a_dam_tol := false;
  a_rule_10_percent := true; a_rule_10_Abdalla := true; a_percent_Abdalla := 10;
  a_combine_45_135 := true; a_calc_combine_45_135 := true;
  a_percent_0 := 0; a_percent_45 := 0; a_percent_90 := 0; a_percent_135 := 0;
  a_percent_45_135 := 0;
  a_diso := false; a_contig := false; a_n_contig := 1; a_delta_angle := 45;
  a_dam_tol_rule := 2; a_set_of_angles := [0; 45; 90; -45]; a_min_drop := 1;
  a_pdl_spacing := false; a_covering := false; a_n_covering := 0 |}.

Theorem C09_gate_abdalla_refuted : exists c, mk_cons args_abdalla = Ok c /\
  rule_10_percent c = true /\ rule_10_Abdalla c = true /\
  is_ten_percent_Abdalla c 1 1 = false /\
  check_lay_up_rules (fun _ => (0, 0)%Q) [0; 0; 0; 0] c false false false false None = Ok tt.
Proof. eexists; split; [vm_compute; reflexivity|]; vm_compute; auto. Qed.
Print Assumptions C09_gate_abdalla_refuted.

Example C09_example : exists c, mk_cons args_full = Ok c /\ (2 <= length stack_ok)%nat /\
  Forall angle_ok stack_ok /\ (contig c = true -> (2 <= n_contig c <= 6)%nat) /\
  check_lay_up_rules (fun _ => (0, 0)%Q) stack_ok c false false false false (Some 14%nat) = Ok tt /\
  check_lay_up_rules (fun _ => (0, 0)%Q) stack_ok c false false false false (Some 12%nat)
    = Err (Raised WrongPlyCount).
Proof.
  eexists; split; [vm_compute; reflexivity|]. split; [cbn; lia|].
  split; [repeat constructor; lia|]. split; [intros _; cbn; lia|].
  vm_compute; auto.
Qed.

(* ---------------- C12 ---------------- *)
Theorem C12_accepted_iff_valid : forall a, (exists c, mk_cons a = Ok c) <-> valid_args a.
Proof. exact mk_cons_valid. Qed.
Print Assumptions C12_accepted_iff_valid.

Theorem C12_constraints_consistent : forall a c, mk_cons a = Ok c -> consistent c.
Proof. exact mk_cons_consistent. Qed.
Print Assumptions C12_constraints_consistent.

Theorem C12_requested_minima_if_balanced : forall a c ss,
  mk_cons a = Ok c -> a_rule_10_percent a = true -> a_rule_10_Abdalla a = false ->
  a_calc_combine_45_135 a = true ->
  balanced ss -> ten_spec eps15 false false c ss -> requested a (4 * eps15) ss.
Proof. exact requested_if_balanced. Qed.
Print Assumptions C12_requested_minima_if_balanced.

(** Finding: without balance a requested minimum is silently dropped: 15% of +45 and
    40% of +-45 requested, a laminate with 20% of +45 and no -45 is accepted... *)
Definition args_45 (p45 p45_135 : Q) : cargs := {|
  a_sym := false; a_bal := false; a_oopo := false; a_dam_tol := false;
  a_rule_10_percent := true; a_rule_10_Abdalla := false; a_percent_Abdalla := 0;
  a_combine_45_135 := true; a_calc_combine_45_135 := true;
  a_percent_0 := 0; a_percent_45 := p45; a_percent_90 := 0; a_percent_135 := 0;
  a_percent_45_135 := p45_135;
  a_diso := false; a_contig := false; a_n_contig := 1; a_delta_angle := 45;
  a_dam_tol_rule := 2; a_set_of_angles := [0; 45; 90; -45]; a_min_drop := 1;
  a_pdl_spacing := false; a_covering := false; a_n_covering := 0 |}.

Theorem C12_requested_minima_refuted :
  (exists c ss, mk_cons (args_45 25 40) = Ok c /\
     is_ten_percent_stack c ss false false = Ok true /\
     ~ (40 / 100 <= share_of 45 ss + share_of (-45) ss + (1 # 100))%Q) /\
  (exists c ss, mk_cons (args_45 20 40) = Ok c /\
     is_ten_percent_stack c ss false false = Ok true /\
     ~ (20 / 100 <= share_of 45 ss + (1 # 100))%Q).
Proof.
  split.
  - eexists; exists [45; 0; 0; 0]; split; [vm_compute; reflexivity|].
    split; [vm_compute; reflexivity | vm_compute; congruence].
  - eexists; exists [-45; -45; 0; 0]; split; [vm_compute; reflexivity|].
    split; [vm_compute; reflexivity | vm_compute; congruence].
Qed.
Print Assumptions C12_requested_minima_refuted.

Example C12_example : (exists c, mk_cons args_full = Ok c) /\ (exists c, mk_cons default_args = Ok c) /\
  mk_cons {| a_sym := true; a_bal := true; a_oopo := false; a_dam_tol := false;
  a_rule_10_percent := false; a_rule_10_Abdalla := false; a_percent_Abdalla := 0;
  a_combine_45_135 := true; a_calc_combine_45_135 := true;
  a_percent_0 := 0; a_percent_45 := 0; a_percent_90 := 0; a_percent_135 := 0;
  a_percent_45_135 := 0;
  a_diso := false; a_contig := false; a_n_contig := 1; a_delta_angle := 45;
  a_dam_tol_rule := 2; a_set_of_angles := [0; 90]; a_min_drop := 1;
  a_pdl_spacing := false; a_covering := false; a_n_covering := 0 |} = Err IndexError.
Proof. repeat split; try eexists; vm_compute; reflexivity. Qed.
