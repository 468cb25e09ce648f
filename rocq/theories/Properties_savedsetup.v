(* Properties_savedsetup.v - C92 the set-up sheets read back *)
From Coq Require Import String.
From Verif Require Import Base Uniq Constraints Guidelines SpecGuidelines GuidelinesProofs ConstraintsProofs Stiffness Panel PanelProofs Objectives SavedSetup Properties_panel Properties_objectives.
From Coq Require Import Lqa.
Local Open Scope Z_scope.

(* ------------------------------------------------------------------ *)
(** * Constraints *)

(** two sets of constraints that agree on everything but the ply percentages *)
Definition same_rules (c c' : cons) : Prop :=
  sym c' = sym c /\ bal c' = bal c /\ ipo c' = ipo c /\ oopo c' = oopo c /\
  dam_tol c' = dam_tol c /\ dam_tol_rule c' = dam_tol_rule c /\
  covering c' = covering c /\ n_covering c' = n_covering c /\
  rule_10_percent c' = rule_10_percent c /\
  (rule_10_percent c = true -> rule_10_Abdalla c' = rule_10_Abdalla c) /\
  diso c' = diso c /\ delta_angle c' = delta_angle c /\
  contig c' = contig c /\ n_contig c' = n_contig c /\ n_contig_c c' = n_contig_c c /\
  set_of_angles c' = set_of_angles c /\ angles_bal c' = angles_bal c /\
  pdl_spacing c' = pdl_spacing c /\ min_drop c' = min_drop c.

(** at most 1e-17 apart *)
Definition close (x y : Q) : Prop := (x - y <= 1 # 100000000000000000)%Q /\ (y - x <= 1 # 100000000000000000)%Q.

Lemma quot_inject z : Z.quot (Qnum (inject_Z z)) (Zpos (Qden (inject_Z z))) = z.
Proof. cbn [inject_Z Qnum Qden]. apply Z.quot_1_r. Qed.
Lemma to_int_inject z : to_int (CNum (inject_Z z)) = Ok z.
Proof. unfold to_int. rewrite quot_inject. reflexivity. Qed.
Lemma to_int_nat n : to_int (CNum (num_of_nat n)) = Ok (Z.of_nat n).
Proof. apply to_int_inject. Qed.

(** the arguments that are read back *)
Definition the_args (c : cons) (nco : nat) : cargs :=
  let pct (x : Q) := (if rule_10_percent c then (x * 100)%Q else 0%Q) in
  {| a_sym := sym c; a_bal := bal c; a_oopo := oopo c; a_dam_tol := dam_tol c; a_dam_tol_rule := dam_tol_rule c;
     a_covering := covering c; a_n_covering := n_covering c; a_rule_10_percent := rule_10_percent c;
     a_rule_10_Abdalla := (rule_10_percent c && rule_10_Abdalla c)%bool;
     a_percent_Abdalla := pct (percent_Abdalla c); a_percent_0 := pct (percent_0 c); a_percent_45 := pct (percent_45 c);
     a_percent_90 := pct (percent_90 c); a_percent_135 := pct (percent_135 c); a_percent_45_135 := pct (percent_45_135 c);
     a_diso := diso c; a_contig := contig c; a_n_contig := nco; a_delta_angle := delta_angle c;
     a_set_of_angles := set_of_angles c; a_min_drop := min_drop c; a_pdl_spacing := pdl_spacing c;
     a_combine_45_135 := true; a_calc_combine_45_135 := true |}.

Lemma read_save c : set_of_angles c <> [] -> exists nco,
  read_constraints (save_constraints c) = Ok (the_args c nco) /\ (forall n, n_contig_c c = Some n -> nco = n).
Proof.
  intros N. destruct (n_contig_c c) as [n|] eqn:En.
  - exists n. split; [|intros m E; congruence].
    unfold read_constraints, save_constraints. rewrite En. destruct (set_of_angles c) as [|a l] eqn:Ea; [congruence|].
    cbn [lookup String.eqb Ascii.eqb Bool.eqb bind to_bool to_num join split].
    rewrite !to_int_nat, !to_int_inject. cbn [bind]. rewrite !Nat2Z.id. unfold the_args. rewrite Ea. reflexivity.
  - exists (Z.to_nat 10000000000). split; [|intros m E; congruence].
    unfold read_constraints, save_constraints. rewrite En. destruct (set_of_angles c) as [|a l] eqn:Ea; [congruence|].
    cbn [lookup String.eqb Ascii.eqb Bool.eqb bind to_bool to_num join split].
    rewrite !to_int_nat, !to_int_inject. change unlimited with (inject_Z 10000000000). rewrite to_int_inject.
    cbn [bind]. rewrite !Nat2Z.id. unfold the_args. rewrite Ea. reflexivity.
Qed.

Lemma uniq_idem l : uniq (uniq l) = uniq l.
Proof. apply ssorted_ext; try apply uniq_ssorted. intros x. rewrite !uniq_in. tauto. Qed.

Lemma set_fibre_again angles r10 sa : set_fibre_orientations angles r10 = Ok sa ->
  set_fibre_orientations (fst sa) r10 = Ok sa.
Proof.
  intros H. pose proof (set_fibre_result _ _ _ H) as [E _]. rewrite E.
  unfold set_fibre_orientations in *. rewrite uniq_idem.
  apply bind_guard in H as [G1 H]. apply bind_guard in H as [G2 H]. apply bind_guard in H as [G3 H].
  apply bind_ok in H as [ab [Hab H]]. apply bind_guard in H as [G4 H]. apply bind_guard in H as [G5 H].
  apply bind_guard; split; auto. apply bind_guard; split; auto. apply bind_guard; split; auto.
  apply bind_ok. exists ab. split; auto. apply bind_guard; split; auto. apply bind_guard; split; auto.
  rewrite Nat.eqb_refl. reflexivity.
Qed.

Lemma pc_ok p : pc_bad p = false <-> (0 <= p <= 100)%Q.
Proof. unfold pc_bad. rewrite orb_false_iff, !Qltb_ge. tauto. Qed.

Lemma pc_back (p : Q) (b : bool) : (0 <= p <= 1)%Q -> pc_bad (if b then (p * 100)%Q else 0%Q) = false.
Proof. intros H. apply pc_ok. destruct b; lra. Qed.

Lemma close_eq x y : (x == y)%Q -> close x y.
Proof. intros H. split; rewrite H; lra. Qed.

Lemma Qmaxb_close a b a' b' : close a' a -> close b' b -> close (Qmaxb a' b') (Qmaxb a b).
Proof.
  unfold close, Qmaxb. intros [A1 A2] [B1 B2].
  destruct (Qltb a' b') eqn:E', (Qltb a b) eqn:E;
    try apply Qltb_lt in E'; try apply Qltb_ge in E'; try apply Qltb_lt in E; try apply Qltb_ge in E; split; lra.
Qed.


Lemma built_facts a c : mk_cons a = Ok c ->
  set_fibre_orientations (set_of_angles c) (rule_10_percent c) = Ok (set_of_angles c, angles_bal c) /\
  (percent_Abdalla c * 100 <= abd_max)%Q /\
  (percent_tot c == if (rule_10_percent c && negb (rule_10_Abdalla c))%bool
    then Qmaxb (percent_0 c + percent_45 c + percent_90 c + percent_135 c) (percent_0 c + percent_45_135 c + percent_90 c) else 0)%Q /\
  (a_calc_combine_45_135 a = true \/ a_combine_45_135 a = true ->
   (percent_45 c == 0 /\ percent_135 c == 0)%Q \/ (eps15 < percent_45 c * 100 \/ eps15 < percent_135 c * 100)%Q).
Proof.
  intros H. unfold mk_cons in H.
  apply bind_guard in H as [G1 H]. apply bind_guard in H as [G2 H].
  apply bind_guard in H as [G3 H]. apply bind_guard in H as [G4 H]. apply bind_guard in H as [G5 H].
  apply bind_guard in H as [G6 H]. apply bind_guard in H as [G7 H]. apply bind_guard in H as [G8 H].
  apply bind_guard in H as [G9 H]. apply bind_ok in H as [sa [Hsa H]]. apply bind_guard in H as [G10 H].
  apply set_fibre_again in Hsa. injection H as <-.
  cbn [set_of_angles rule_10_percent angles_bal percent_Abdalla rule_10_Abdalla percent_tot percent_0 percent_45 percent_90 percent_135 percent_45_135].
  split; [rewrite Hsa; destruct sa; reflexivity|].
  apply orb_false_iff in G3 as [_ G3]. apply Qltb_ge in G3. apply pc_ok in G5, G7, G8.
  split.
  { destruct (a_rule_10_percent a && a_rule_10_Abdalla a)%bool; [rewrite div100; lra|]. unfold abd_max. lra. }
  split.
  { destruct (a_rule_10_percent a && negb (a_rule_10_Abdalla a))%bool; reflexivity. }
  intros CC. destruct (a_rule_10_percent a && negb (a_rule_10_Abdalla a))%bool; [|left; split; reflexivity].
  destruct (combine a) eqn:CB; [left; split; reflexivity|]. right.
  unfold combine in CB. destruct (a_calc_combine_45_135 a).
  - apply negb_false_iff, orb_true_iff in CB. rewrite !Qltb_lt in CB.
    assert (X : (0 <= a_percent_45_135 a / 2)%Q) by (apply Qle_shift_div_l; lra).
    rewrite !div100. destruct CB as [CB|CB]; [left|right]; lra.
  - destruct CC; congruence.
Qed.

Lemma read_back c nco : consistent c ->
  set_fibre_orientations (set_of_angles c) (rule_10_percent c) = Ok (set_of_angles c, angles_bal c) ->
  (percent_Abdalla c * 100 <= abd_max)%Q -> (forall n, n_contig_c c = Some n -> nco = n) ->
  exists c', mk_cons (the_args c nco) = Ok c' /\ same_rules c c' /\
  (percent_Abdalla c' == percent_Abdalla c)%Q /\ (percent_0 c' == percent_0 c)%Q /\ (percent_90 c' == percent_90 c)%Q /\
  (percent_45_135 c' == percent_45_135 c)%Q /\
  close (percent_45 c') (percent_45 c) /\ close (percent_135 c') (percent_135 c) /\
  ((percent_45 c == 0 /\ percent_135 c == 0)%Q \/ (eps15 < percent_45 c * 100 \/ eps15 < percent_135 c * 100)%Q ->
    percent_45 c' == percent_45 c /\ percent_135 c' == percent_135 c)%Q /\
  (percent_tot c' == if (rule_10_percent c && negb (rule_10_Abdalla c))%bool
    then Qmaxb (percent_0 c' + percent_45 c' + percent_90 c' + percent_135 c') (percent_0 c' + percent_45_135 c' + percent_90 c') else 0)%Q.
Proof.
  intros K FS AB NC. destruct (k_pct c K) as (P0 & P45 & P90 & P135 & P4).
  eexists. split.
  - unfold mk_cons, the_args. cbn [a_dam_tol a_dam_tol_rule a_n_covering a_percent_Abdalla a_percent_0 a_percent_45 a_percent_90 a_percent_135 a_percent_45_135
      a_contig a_n_contig a_set_of_angles a_rule_10_percent a_min_drop].
    apply bind_guard; split.
    { destruct (dam_tol c) eqn:D; [|reflexivity]. cbn [andb]. destruct (k_damtol_on c K D) as [_ [[E _]|[[E|E] _]]]; rewrite E; reflexivity. }
    apply bind_guard; split.
    { pose proof (k_ncover c K). destruct (n_covering c) as [|[|[|n]]]; try reflexivity. lia. }
    apply bind_guard; split.
    { apply orb_false_iff. rewrite !Qltb_ge. pose proof (k_abd c K). destruct (rule_10_percent c); [lra|]. unfold abd_max. lra. }
    apply bind_guard; split; [apply pc_back; auto|].
    apply bind_guard; split; [apply pc_back; auto|].
    apply bind_guard; split; [apply pc_back; auto|].
    apply bind_guard; split; [apply pc_back; auto|].
    apply bind_guard; split; [apply pc_back; auto|].
    apply bind_guard; split.
    { destruct (contig c) eqn:D; [|reflexivity]. cbn [andb]. destruct (k_contig_on c K D) as [E1 E2]. rewrite (NC _ E2). apply Nat.eqb_neq; auto. }
    apply bind_ok. exists (set_of_angles c, angles_bal c). split; [exact FS|].
    apply bind_guard; split; [apply Z.ltb_ge; exact (k_min_drop c K)|]. reflexivity.
  - set (comb := combine _). cbn [a_dam_tol a_dam_tol_rule a_n_covering a_percent_Abdalla a_percent_0 a_percent_45 a_percent_90 a_percent_135 a_percent_45_135
      a_contig a_n_contig a_set_of_angles a_rule_10_percent a_min_drop a_sym a_bal a_oopo a_diso a_delta_angle a_pdl_spacing a_covering a_rule_10_Abdalla the_args
      percent_Abdalla percent_0 percent_45 percent_90 percent_135 percent_45_135 percent_tot fst snd].
    assert (SR : forall c', sym c' = sym c -> True) by auto. clear SR.
    split.
    { unfold same_rules. cbn [sym bal ipo oopo dam_tol dam_tol_rule covering n_covering rule_10_percent rule_10_Abdalla diso delta_angle contig n_contig n_contig_c
        set_of_angles angles_bal pdl_spacing min_drop].
      repeat (split; [solve [reflexivity | symmetry; exact (k_ipo c K)]|]).
      split. { destruct (dam_tol c) eqn:D; auto. symmetry. exact (k_damtol_off c K D). }
      split. { destruct (dam_tol c) eqn:D; auto. symmetry. exact (proj1 (k_damtol_on c K D)). }
      split. { destruct (dam_tol c) eqn:D.
        - destruct (k_damtol_on c K D) as [_ [[E L]|[[E|E] L]]]; rewrite E; cbn [Nat.eqb]; lia.
        - destruct (covering c) eqn:V; auto. pose proof (k_cover c K V). lia. }
      split; [reflexivity|].
      split. { intros R. rewrite R. reflexivity. }
      split; [reflexivity|].
      split. { destruct (diso c) eqn:D; auto. symmetry. exact (k_diso c K D). }
      split; [reflexivity|].
      split. { destruct (contig c) eqn:D.
        - destruct (k_contig_on c K D) as [_ E2]. apply NC. auto.
        - symmetry. exact (proj1 (k_contig_off c K D)). }
      split. { destruct (contig c) eqn:D.
        - destruct (k_contig_on c K D) as [_ E2]. rewrite E2. f_equal. apply NC. auto.
        - symmetry. exact (proj2 (k_contig_off c K D)). }
      repeat split. }
    pose proof (k_abd_off c K) as A0. pose proof (k_pct_off c K) as F0. pose proof (k_one45 c K) as O45.
    assert (CB : rule_10_percent c = true -> comb = negb (Qltb (eps15 + percent_45_135 c * 100 / 2) (percent_45 c * 100) || Qltb (eps15 + percent_45_135 c * 100 / 2) (percent_135 c * 100))%Q).
    { intros R. unfold comb, combine, the_args. cbn. rewrite R. reflexivity. }
    clearbody comb.
    assert (Z0 : (0 < eps15)%Q) by reflexivity.
    assert (ZS : (eps15 * (1 # 100) == 1 # 100000000000000000)%Q) by reflexivity.
    unfold close. rewrite <- ZS. clear ZS.
    destruct (rule_10_percent c) eqn:R, (rule_10_Abdalla c) eqn:RA; cbn [andb negb].
    + (* Abdalla *)
      specialize (F0 (or_intror eq_refl)) as (F1 & F2 & F3 & F4 & F5 & F6).
      split; [field|]. split; [lra|]. split; [lra|]. split; [lra|]. split; [split; lra|]. split; [split; lra|].
      split; [intros _; split; lra|reflexivity].
    + specialize (A0 (or_intror eq_refl)). specialize (CB eq_refl).
      assert (X2 : (percent_45_135 c * 100 / 2 == percent_45_135 c * 50)%Q) by field.
      assert (D : forall x, (x * 100 / 100 == x)%Q) by (intros x; field).
      assert (D0 : (0 / 100 == 0)%Q) by reflexivity.
      split; [lra|]. split; [apply D|]. split; [apply D|].
      destruct comb.
      * symmetry in CB. apply negb_true_iff, orb_false_iff in CB as [C1 C2]. apply Qltb_ge in C1, C2. rewrite X2 in C1, C2.
        split; [apply D|].
        destruct O45 as [O|[O1 O2]].
        -- rewrite O in C1, C2. split; [rewrite D0; split; lra|]. split; [rewrite D0; split; lra|].
           split; [intros W; rewrite D0; destruct W as [[? ?]|[?|?]]; split; lra|reflexivity].
        -- split; [rewrite D0; split; lra|]. split; [rewrite D0; split; lra|].
           split; [intros _; rewrite D0; split; lra|reflexivity].
      * symmetry in CB. apply negb_false_iff, orb_true_iff in CB. rewrite !Qltb_lt, X2 in CB.
        assert (O : (percent_45_135 c == 0)%Q) by (destruct O45 as [O|[O1 O2]]; auto; exfalso; destruct CB; lra).
        split; [rewrite D0; lra|]. split; [rewrite D; split; lra|]. split; [rewrite D; split; lra|].
        split; [intros _; rewrite !D; split; reflexivity|reflexivity].
    + specialize (F0 (or_introl eq_refl)) as (F1 & F2 & F3 & F4 & F5 & F6). specialize (A0 (or_introl eq_refl)).
      repeat split; try lra; try (intros _; split; lra); reflexivity.
    + specialize (F0 (or_introl eq_refl)) as (F1 & F2 & F3 & F4 & F5 & F6). specialize (A0 (or_introl eq_refl)).
      repeat split; try lra; try (intros _; split; lra); reflexivity.
Qed.

(** the constraints saved are those read back; the percentages of the plies at 45 and -45 may be off by
    1e-17, and by nothing when the constructor chose between the two forms of the rule *)
Theorem C92_constraints : forall a c, mk_cons a = Ok c ->
  exists a' c', read_constraints (save_constraints c) = Ok a' /\ mk_cons a' = Ok c' /\ same_rules c c' /\
  (percent_Abdalla c' == percent_Abdalla c)%Q /\ (percent_0 c' == percent_0 c)%Q /\ (percent_90 c' == percent_90 c)%Q /\
  (percent_45_135 c' == percent_45_135 c)%Q /\
  close (percent_45 c') (percent_45 c) /\ close (percent_135 c') (percent_135 c) /\
  (a_calc_combine_45_135 a = true \/ a_combine_45_135 a = true ->
    percent_45 c' == percent_45 c /\ percent_135 c' == percent_135 c /\ percent_tot c' == percent_tot c)%Q.
Proof.
  intros a c H. pose proof (mk_cons_consistent a c H) as K. destruct (built_facts a c H) as (F1 & F2 & F3 & F4).
  assert (NE : set_of_angles c <> []).
  { destruct (k_set c K) as (_ & _ & _ & [x [Hx _]] & _). intros E. rewrite E in Hx. destruct Hx. }
  destruct (read_save c NE) as [nco [E1 E2]].
  destruct (read_back c nco K F1 F2 E2) as (c' & M & S1 & Q1 & Q2 & Q3 & Q4 & Q5 & Q6 & Q7 & Q8).
  exists (the_args c nco), c'. repeat (split; [assumption|]). intros CC. destruct (Q7 (F4 CC)) as [R1 R2].
  split; auto. split; auto. rewrite Q8, F3. destruct (rule_10_percent c && negb (rule_10_Abdalla c))%bool; [|reflexivity].
  assert (X : (percent_0 c' + percent_45 c' + percent_90 c' + percent_135 c' == percent_0 c + percent_45 c + percent_90 c + percent_135 c)%Q) by (rewrite Q2, R1, Q3, R2; reflexivity).
  assert (Y : (percent_0 c' + percent_45_135 c' + percent_90 c' == percent_0 c + percent_45_135 c + percent_90 c)%Q) by (rewrite Q2, Q4, Q3; reflexivity).
  unfold Qmaxb. destruct (Qltb _ _) eqn:A1, (Qltb (percent_0 c + percent_45 c + percent_90 c + percent_135 c) _) eqn:A2; try lra;
    try apply Qltb_lt in A1; try apply Qltb_ge in A1; try apply Qltb_lt in A2; try apply Qltb_ge in A2; lra.
Qed.
Print Assumptions C92_constraints.

(** a percentage of 1e-16 per cent for the plies at 45, with the two forms of the rule chosen by the user, is lost *)
Theorem C92_exact_percentages_refuted : ~ (forall a c a' c', mk_cons a = Ok c ->
  read_constraints (save_constraints c) = Ok a' -> mk_cons a' = Ok c' -> percent_45 c' == percent_45 c)%Q.
Proof.
  intros H.
  set (a := {| a_sym := true; a_bal := true; a_oopo := false; a_dam_tol := false; a_rule_10_percent := true; a_rule_10_Abdalla := false;
     a_percent_Abdalla := 0; a_combine_45_135 := false; a_calc_combine_45_135 := false;
     a_percent_0 := 10; a_percent_45 := 1 # 10000000000000000; a_percent_90 := 10; a_percent_135 := 0; a_percent_45_135 := 0;
     a_diso := false; a_contig := true; a_n_contig := 5; a_delta_angle := 45;
     a_dam_tol_rule := 2; a_set_of_angles := [0; 45; 90; -45]; a_min_drop := 1;
     a_pdl_spacing := false; a_covering := false; a_n_covering := 0 |}).
  destruct (mk_cons a) as [c|e] eqn:E; [|vm_compute in E; discriminate].
  vm_compute in E. injection E as Ec.
  destruct (read_constraints (save_constraints c)) as [a'|e'] eqn:E'; [|subst c; vm_compute in E'; discriminate].
  subst c. vm_compute in E'. injection E' as Ea.
  destruct (mk_cons a') as [c'|e''] eqn:E''; [|subst a'; vm_compute in E''; discriminate].
  specialize (H a _ a' c' eq_refl). rewrite <- Ea in E''. vm_compute in E''. injection E'' as Ecc.
  assert (X := H ltac:(rewrite <- Ea; reflexivity) ltac:(rewrite <- Ea, <- Ecc; reflexivity)).
  rewrite <- Ecc in X. vm_compute in X. discriminate.
Qed.
Print Assumptions C92_exact_percentages_refuted.

(* ------------------------------------------------------------------ *)
(** * Objective function *)

(** the coefficients are kept, but for the one on balance, which becomes 1; the number of buckling modes becomes 1 *)
Theorem C92_objective : forall c c' g o, mk_obj c g = Ok o -> same_rules c c' ->
  exists g' o', read_objective (save_objective o) = Ok g' /\ mk_obj c' g' = Ok o' /\
  coeff_diso o' = coeff_diso o /\ coeff_contig o' = coeff_contig o /\ coeff_10 o' = coeff_10 o /\
  coeff_oopo o' = coeff_oopo o /\ coeff_spacing o' = coeff_spacing o /\
  coeff_bal_ipo o' = (if bal c then 1 else 0)%Q /\ n_modes o' = 1.
Proof.
  intros c c' g o H S. destruct S as (_ & Sb & _ & So & _ & _ & _ & _ & Sr & _ & Sd & _ & Sc & _ & _ & _ & _ & Sp & _).
  unfold mk_obj in H. apply bind_guard in H as [_ H].
  apply bind_ok in H as [k10 [E1 H]]. apply bind_ok in H as [kb [E2 H]]. apply bind_ok in H as [ko [E3 H]].
  apply bind_ok in H as [kc [E4 H]]. apply bind_ok in H as [kd [E5 H]]. apply bind_ok in H as [ks [E6 H]]. injection H as <-.
  assert (A : forall act q r, set_coeff act q = Ok r -> set_coeff act r = Ok r).
  { intros act q r. unfold set_coeff. destruct act; [|auto].
    destruct (Qle_bool 0 q) eqn:L; [|discriminate]. intros X. injection X as <-. rewrite L. reflexivity. }
  apply A in E1, E3, E4, E5, E6.
  eexists. eexists. split; [reflexivity|]. unfold mk_obj.
  cbn [g_10 g_bal_ipo g_oopo g_contig g_diso g_spacing g_modes default_oargs coeff_10 coeff_contig coeff_diso coeff_oopo coeff_spacing].
  rewrite Sb, So, Sr, Sd, Sc, Sp, E1, E3, E4, E5, E6.
  replace (set_coeff (bal c) 1) with (@Ok Q (if bal c then 1 else 0)%Q) by (destruct (bal c); reflexivity).
  split; [reflexivity|]. cbn [coeff_10 coeff_contig coeff_diso coeff_oopo coeff_spacing coeff_bal_ipo n_modes]. repeat split.
Qed.
Print Assumptions C92_objective.

(** a coefficient is the one that is given when its guideline is active, and 0 otherwise *)
Definition coefficient_of (active : bool) (given q : Q) : Prop := if active then (0 <= given)%Q /\ q = given else q = 0%Q.
(** the object is built exactly when the coefficients of the active guidelines are not negative and
    there is at least one buckling mode; each coefficient is that of its own guideline *)
Theorem C39_objective_function : forall c g o, mk_obj c g = Ok o <->
  1 <= g_modes g /\ n_modes o = g_modes g /\
  coefficient_of (rule_10_percent c) (g_10 g) (coeff_10 o) /\ coefficient_of (bal c) (g_bal_ipo g) (coeff_bal_ipo o) /\ coefficient_of (oopo c) (g_oopo g) (coeff_oopo o) /\
  coefficient_of (contig c) (g_contig g) (coeff_contig o) /\ coefficient_of (diso c) (g_diso g) (coeff_diso o) /\ coefficient_of (pdl_spacing c) (g_spacing g) (coeff_spacing o).
Proof.
  intros c g o. assert (A : forall act q r, set_coeff act q = Ok r <-> coefficient_of act q r).
  { intros act q r. unfold set_coeff, coefficient_of. destruct act; [|split; [intros X; injection X as <-; reflexivity|intros ->; reflexivity]].
    destruct (Qle_bool 0 q) eqn:L.
    - apply Qle_bool_iff in L. split; [intros X; injection X as <-; auto|intros [_ ->]; reflexivity].
    - split; [discriminate|]. intros [X _]. apply Qle_bool_iff in X. congruence. }
  split.
  - intros H. unfold mk_obj in H. unfold guard in H. destruct (Z.ltb_spec (g_modes g) 1) as [|M]; cbn [bind] in H; [discriminate H|].
    apply bind_ok in H as [k10 [E1 H]]. apply bind_ok in H as [kb [E2 H]]. apply bind_ok in H as [ko [E3 H]].
    apply bind_ok in H as [kc [E4 H]]. apply bind_ok in H as [kd [E5 H]]. apply bind_ok in H as [ks [E6 H]]. injection H as <-.
    cbn [n_modes coeff_10 coeff_bal_ipo coeff_oopo coeff_contig coeff_diso coeff_spacing]. rewrite <- !A. repeat split; auto.
  - intros (M & N & E1 & E2 & E3 & E4 & E5 & E6). apply A in E1, E2, E3, E4, E5, E6. unfold mk_obj, guard. destruct (Z.ltb_spec (g_modes g) 1); [lia|]. cbn [bind].
    rewrite E1, E2, E3, E4, E5, E6. cbn [bind]. rewrite <- N. destruct o; reflexivity.
Qed.
Print Assumptions C39_objective_function.

(* ------------------------------------------------------------------ *)
(** * Material *)

(** everything is kept but the density per volume, which becomes the density per area over the ply thickness *)
Theorem C92_material : forall a m, mk_material a = Ok m ->
  exists a' m', read_materials (save_materials m) = Ok a' /\ mk_material a' = Ok m' /\
  E11 m' = E11 m /\ E22 m' = E22 m /\ G12 m' = G12 m /\ nu12 m' = nu12 m /\ nu21 m' = nu21 m /\
  density_area m' = density_area m /\ ply_t m' = ply_t m /\
  Q11 m' = Q11 m /\ Q12 m' = Q12 m /\ Q22 m' = Q22 m /\ Q66 m' = Q66 m /\
  U1 m' = U1 m /\ U2 m' = U2 m /\ U3 m' = U3 m /\ U4 m' = U4 m /\ U5 m' = U5 m /\
  (density_volume m' == density_area m / ply_t m)%Q.
Proof.
  intros a m H. unfold mk_material in H.
  apply bind_guard in H as [G1 H]. apply bind_guard in H as [_ H]. apply bind_guard in H as [_ H].
  apply bind_guard in H as [G2 H]. apply bind_guard in H as [G3 H]. apply bind_guard in H as [G4 H].
  apply bind_ok in H as [n21 [E1 H]]. apply bind_ok in H as [dd [E2 H]].
  apply bind_ok in H as [q11 [E3 H]]. apply bind_ok in H as [q12 [E4 H]]. apply bind_ok in H as [q22 [E5 H]]. injection H as <-.
  assert (T0 : (0 < a_t a)%Q).
  { destruct (Qlt_le_dec 0 (a_t a)) as [L|L]; auto. apply Qle_bool_iff in L. congruence. }
  apply Qltb_ge in G2, G3.
  assert (D0 : (0 < fst dd)%Q).
  { destruct (Qeq_bool (a_da a) 0) eqn:A, (Qeq_bool (a_dv a) 0) eqn:B; cbn [andb] in E2.
    - apply bind_ok in E2 as [x [_ E2]]. injection E2 as <-. reflexivity.
    - injection E2 as <-. cbn [fst]. apply Qmult_lt_0_compat; auto.
      apply Qle_lteq in G2 as [L|L]; auto. symmetry in L. apply Qeq_eq_bool in L. congruence.
    - apply bind_ok in E2 as [x [_ E2]]. injection E2 as <-. cbn [fst].
      apply Qle_lteq in G3 as [L|L]; auto. symmetry in L. apply Qeq_eq_bool in L. congruence.
    - injection E2 as <-. cbn [fst].
      apply Qle_lteq in G3 as [L|L]; auto. symmetry in L. apply Qeq_eq_bool in L. congruence. }
  eexists. eexists. split; [reflexivity|]. unfold mk_material.
  cbn [a_E11 a_E22 a_nu12 a_G12 a_dv a_da a_t E11 E22 G12 nu12 density_area ply_t].
  split.
  { apply bind_guard; split; auto. apply bind_guard; split; auto. apply bind_guard; split; auto.
    apply bind_guard; split; [reflexivity|]. apply bind_guard; split; [apply Qltb_ge; lra|]. apply bind_guard; split; auto.
    rewrite E1. cbn [bind].
    destruct (Qeq_bool (fst dd) 0) eqn:A; [apply Qeq_bool_eq in A; lra|].
    change (Qeq_bool 0 0) with true. cbn [andb].
    unfold qdiv at 1. destruct (Qeq_bool (a_t a) 0) eqn:B; [apply Qeq_bool_eq in B; lra|]. cbn [bind].
    rewrite E3, E4, E5. cbn [bind fst snd]. reflexivity. }
  cbn. repeat split; reflexivity.
Qed.
Print Assumptions C92_material.

(** a material without densities gets one per volume by being saved and read back *)
Theorem C92_density_volume_refuted : ~ (forall a m a' m', mk_material a = Ok m ->
  read_materials (save_materials m) = Ok a' -> mk_material a' = Ok m' -> density_volume m' == density_volume m)%Q.
Proof.
  intros H.
  specialize (H {| a_E11 := 130; a_E22 := 9; a_nu12 := 3 # 10; a_G12 := 4; a_dv := 0; a_da := 0; a_t := 1 # 5000 |}%Q).
  eassert (X := H _ _ _ eq_refl eq_refl eq_refl). vm_compute in X. discriminate.
Qed.
Print Assumptions C92_density_volume_refuted.

(** the coefficient on balance is lost *)
Theorem C92_balance_coefficient_refuted : ~ (forall c g o g' o', mk_obj c g = Ok o ->
  read_objective (save_objective o) = Ok g' -> mk_obj c g' = Ok o' -> coeff_bal_ipo o' == coeff_bal_ipo o)%Q.
Proof.
  intros H.
  set (c := {| sym := true; bal := true; ipo := true; oopo := false; dam_tol := false; dam_tol_rule := 1;
     covering := false; n_covering := 0; rule_10_percent := false; rule_10_Abdalla := false; percent_Abdalla := 0;
     percent_0 := 0; percent_45 := 0; percent_90 := 0; percent_135 := 0; percent_45_135 := 0; percent_tot := 0;
     diso := false; delta_angle := 45; contig := false; n_contig := 1; n_contig_c := None;
     set_of_angles := [-45; 0; 45; 90]; angles_bal := []; pdl_spacing := false; min_drop := 2 |}).
  specialize (H c {| g_diso := 0; g_contig := 0; g_10 := 0; g_bal_ipo := 5; g_oopo := 1; g_spacing := 1; g_modes := 1 |}%Q).
  eassert (X := H _ _ _ eq_refl eq_refl eq_refl). vm_compute in X. discriminate.
Qed.
Print Assumptions C92_balance_coefficient_refuted.

(* ------------------------------------------------------------------ *)
(** * Panels *)

(** the weightings that are saved are already filtered: filtering them again changes nothing *)
Theorem C92_weightings_stable : forall c coeff w w',
  length w = 12%nat -> (forall i, 0 <= nth i w 0)%Q -> (0 <= coeff)%Q ->
  filter_weightings c coeff w = Ok (Some w') ->
  exists w'', filter_weightings c coeff w' = Ok (Some w'') /\ length w'' = 12%nat /\ (forall i, nth i w'' 0 == nth i w' 0)%Q.
Proof.
  intros c coeff w w' L P C H.
  destruct (C58_weightings c coeff w w' L P C H) as (L' & P' & S' & k & K0 & N1 & N2 & N3).
  destruct (proj1 (C58_defined c coeff w L P C)) as [D1 _]. destruct (D1 (ex_intro _ w' H)) as [i0 U0]. clear D1.
  assert (IU : forall j, in_use c w' j <-> in_use c w j).
  { intros j. unfold in_use. split; intros (A & B & Z); split; auto; split; auto; intros X; apply Z.
    - rewrite (N1 j B), X. ring.
    - rewrite (N1 j B) in X. apply Qmult_integral in X as [X|X]; auto. lra. }
  destruct (proj1 (C58_defined c coeff w' L' P' C)) as [_ D2]. destruct (D2 (ex_intro _ i0 (proj2 (IU i0) U0))) as [w'' H']. clear D2.
  exists w''. split; auto.
  destruct (C58_weightings c coeff w' w'' L' P' C H') as (L'' & P'' & S'' & k' & K0' & M1 & M2 & M3).
  split; auto.
  assert (DU : forall j, {in_use c w j} + {~ in_use c w j}).
  { intros j. unfold in_use. destruct (le_lt_dec 12 j) as [A|A]; [right; lia|].
    destruct (clearedb c j) eqn:B.
    - right. intros (_ & X & _). apply X. apply off_clearedb. auto.
    - destruct (Qeq_dec (nth j w 0%Q) 0) as [Z|Z]; [right; tauto|]. left. split; auto. split; auto.
      rewrite off_clearedb. congruence. }
  set (used := filter (fun j => if DU j then true else false) (seq 0 12)).
  assert (UN : NoDup used) by (apply NoDup_filter, seq_NoDup).
  assert (UI : forall j, In j used <-> in_use c w j).
  { intros j. unfold used. rewrite filter_In, in_seq. destruct (DU j) as [A|A]; split; try tauto; try (intros [_ X]; discriminate).
    intros X. split; auto. destruct X. lia. }
  assert (UZ : ~ (inject_Z (zlen used) == 0)%Q).
  { apply UI in U0. unfold zlen. destruct used; [destruct U0|]. unfold Qeq. cbn. lia. }
  assert (R : forall i, (nth i w'' 0 == k' * nth i w' 0)%Q).
  { intros i. destruct (clearedb c i) eqn:B.
    - assert (O : off c i) by (apply off_clearedb; auto).
      assert (OC : oopo_component c i \/ ~ oopo_component c i).
      { unfold oopo_component. destruct (oopo c); [|right; intros [X _]; discriminate].
        destruct (Nat.eq_dec i 10) as [E|E]; [left; auto|]. destruct (Nat.eq_dec i 11) as [E1|E1]; [|right; tauto].
        destruct (four_dec c); [right; tauto|left; auto]. }
      destruct OC as [OC|OC].
      + pose proof (N3 i used OC UN UI) as X. pose proof (M3 i used OC UN (fun j => iff_trans (UI j) (iff_sym (IU j)))) as Y.
        assert (Z : (sumQ (map (fun j => nth j w' 0%Q) used) == k * sumQ (map (fun j => nth j w 0%Q) used))%Q).
        { assert (W : forall j, In j used -> (nth j w' 0 == k * nth j w 0)%Q) by (intros j Hj; apply UI in Hj as (_ & O' & _); auto).
          clear - W. induction used as [|j u IH]; cbn [map]; [change (0 == k * 0)%Q; ring|].
          change (nth j w' 0 + sumQ (map (fun j => nth j w' 0%Q) u) == k * (nth j w 0 + sumQ (map (fun j => nth j w 0%Q) u)))%Q.
          rewrite (W j (or_introl eq_refl)), IH by (intros; apply W; right; auto). ring. }
        rewrite Z in Y.
        assert (V : (nth i w'' 0 * inject_Z (zlen used) == k' * nth i w' 0 * inject_Z (zlen used))%Q).
        { rewrite Y. rewrite <- (Qmult_assoc k' (nth i w' 0%Q)), X. ring. }
        apply Qmult_inj_r in V; auto.
      + rewrite (N2 i O OC), (M2 i O OC). ring.
    - apply M1. rewrite off_clearedb. congruence. }
  assert (K1 : (k' == 1)%Q).
  { assert (X : forall u v, length u = length v -> (forall i, nth i u 0 == k' * nth i v 0)%Q -> (sumQ u == k' * sumQ v)%Q).
    { induction u as [|x u IH]; intros [|y v] Lv Nv; try discriminate; [change (0 == k' * 0)%Q; ring|].
      change (x + sumQ u == k' * (y + sumQ v))%Q. rewrite (IH v); [|injection Lv as Lv; auto|intros i; exact (Nv (Datatypes.S i))].
      pose proof (Nv 0%nat) as X. cbn [nth] in X. rewrite X. ring. }
    specialize (X w'' w' ltac:(congruence) R). rewrite S', S'' in X. lra. }
  intros i. rewrite R, K1. ring.
Qed.
Print Assumptions C92_weightings_stable.

(** a panel ready to be saved: built, its targets and weightings filtered as create_input_file_*.py do *)
Definition ready (c : cons) (coeff : Q) (p : dpanel) : Prop :=
  exists a p0, mk_panel c a = Ok p0 /\ length (a_target a) = 12%nat /\ length (a_lw a) = 12%nat /\
  filter_target c (target p0) = Ok (target (d_panel p)) /\
  filter_weightings c coeff (lw_ini p0) = Ok (Some (d_lw p)) /\
  n_plies (d_panel p) = n_plies p0 /\ middle_ply_index (d_panel p) = middle_ply_index p0 /\ has_middle_ply (d_panel p) = has_middle_ply p0 /\
  lw_ini (d_panel p) = lw_ini p0 /\ weighting (d_panel p) = weighting p0.

(** a panel read back is the panel saved, but for its area, its lengths and its loads *)
Definition same_panel (c' : cons) (coeff : Q) (p : dpanel) (r : read_panel) : Prop :=
  r_id r = d_id p /\ r_nbs r = d_nbs p /\
  exists p', mk_panel c' (r_args r) = Ok p' /\
  n_plies p' = n_plies (d_panel p) /\ middle_ply_index p' = middle_ply_index (d_panel p) /\ has_middle_ply p' = has_middle_ply (d_panel p) /\
  weighting p' = weighting (d_panel p) /\ area p' = 0%Q /\
  target p' = target (d_panel p) /\ filter_target c' (target p') = Ok (target (d_panel p)) /\
  exists w', filter_weightings c' coeff (lw_ini p') = Ok (Some w') /\ length w' = 12%nat /\ (forall i, nth i w' 0 == nth i (d_lw p) 0)%Q.

Lemma save_row p : length (target (d_panel p)) = 12%nat -> length (lw_ini (d_panel p)) = 12%nat -> length (d_lw p) = 12%nat ->
  exists row, save_panel p = Ok row /\ at_column row KNbs = Ok (join (d_nbs p)) /\
  forall x, read_row row x = do nb <- split x;
    Ok {| r_id := d_id p; r_nbs := nb; r_args := {| a_n := n_plies (d_panel p); a_target := target (d_panel p); a_lw := d_lw p;
          a_area := 0%Q; a_lx := 0%Q; a_ly := 0%Q; a_weighting := weighting (d_panel p) |} |}.
Proof.
  intros H1 H2 H3. unfold save_panel.
  destruct (twelve _ H1) as [x0 [x1 [x2 [x3 [x4 [x5 [x6 [x7 [x8 [x9 [x10 [x11 E1]]]]]]]]]]]].
  destruct (twelve _ H2) as [y0 [y1 [y2 [y3 [y4 [y5 [y6 [y7 [y8 [y9 [y10 [y11 E2]]]]]]]]]]]].
  destruct (twelve _ H3) as [z0 [z1 [z2 [z3 [z4 [z5 [z6 [z7 [z8 [z9 [z10 [z11 E3]]]]]]]]]]]].
  rewrite E1, E2, E3.
  unfold twelve_cells. cbn [seq mapM bind at_ nth_error].
  destruct (negb (Qeq_bool (d_lx p) 0) && negb (Qeq_bool (d_ly p) 0))%bool; (eexists; split; [reflexivity|]; split; [reflexivity|]);
    intros x; unfold read_row; cbn [List.app at_column column_eqb seq mapM bind Nat.eqb]; rewrite !to_int_inject; reflexivity.
Qed.

Lemma ready_lengths c coeff p : ready c coeff p ->
  length (target (d_panel p)) = 12%nat /\ length (lw_ini (d_panel p)) = 12%nat /\ length (d_lw p) = 12%nat.
Proof.
  intros (a & p0 & M & T & W & FT & FW & _ & _ & _ & EW & _).
  unfold mk_panel in M. apply bind_ok in M as [m [_ M]]. do 3 apply bind_guard in M as [_ M]. apply bind_guard in M as [_ M]. apply bind_guard in M as [_ M].
  injection M as <-. cbn [target lw_ini] in *.
  split; [rewrite (proj1 (filter_target_spec _ _ _ FT)); auto|]. split; [congruence|].
  destruct (filter_weightings_spec c coeff (a_lw a) W) as (w1 & _ & _ & _ & w2 & L2 & _ & E). rewrite E in FW.
  destruct (oopo c && _)%bool; [discriminate|]. destruct (Qeq_bool (sumQ w2) 0); [discriminate|]. injection FW as <-. rewrite map_length. auto.
Qed.

Lemma filters_same c c' coeff : same_rules c c' ->
  (forall t, filter_target c' t = filter_target c t) /\ (forall w, filter_weightings c' coeff w = filter_weightings c coeff w).
Proof.
  intros (S1 & S2 & _ & S3 & _ & _ & _ & _ & _ & _ & _ & _ & _ & _ & _ & S4 & _).
  split; intros t; unfold filter_target, filter_weightings, clear_weightings; rewrite S1, S2, S3, ?S4; reflexivity.
Qed.

Lemma row_back c c' coeff p : (0 <= coeff)%Q -> ready c coeff p -> same_rules c c' ->
  same_panel c' coeff p {| r_id := d_id p; r_nbs := d_nbs p; r_args := {| a_n := n_plies (d_panel p); a_target := target (d_panel p); a_lw := d_lw p;
          a_area := 0%Q; a_lx := 0%Q; a_ly := 0%Q; a_weighting := weighting (d_panel p) |} |}.
Proof.
  intros C R SR. destruct (filters_same c c' coeff SR) as [FT' FW']. pose proof (ready_lengths c coeff p R) as (LT & LI & LW).
  destruct R as (a & p0 & M & T & W & FT & FW & E1 & E2 & E3 & E4 & E5).
  unfold mk_panel in M. apply bind_ok in M as [m [M0 M]]. apply bind_guard in M as [G1 M]. apply bind_guard in M as [G2 M].
  apply bind_guard in M as [G3 M]. apply bind_guard in M as [G4 M]. apply bind_guard in M as [G5 M].
  injection M as <-. cbn [target lw_ini n_plies middle_ply_index has_middle_ply weighting] in *.
  assert (P : forall i, (0 <= nth i (a_lw a) 0)%Q).
  { intros i. destruct (nth_in_or_default i (a_lw a) 0%Q) as [I|I]; [|rewrite I; lra].
    destruct (Qltb (nth i (a_lw a) 0%Q) 0) eqn:Z; [|apply Qltb_ge; exact Z].
    assert (X : existsb (fun x => Qltb x 0) (a_lw a) = true) by (apply existsb_exists; eauto). congruence. }
  split; [reflexivity|]. split; [reflexivity|].
  destruct (C58_weightings c coeff (a_lw a) (d_lw p) W P C FW) as (_ & P' & _).
  destruct (C92_weightings_stable c coeff (a_lw a) (d_lw p) W P C FW) as (w'' & F'' & L'' & N'').
  eexists. split.
  - unfold mk_panel. cbn [r_args a_n a_target a_lw a_area a_lx a_ly a_weighting]. destruct SR as [Ss _]. rewrite Ss, E1, M0. cbn [bind].
    apply bind_guard; split; [reflexivity|]. apply bind_guard; split; [reflexivity|]. apply bind_guard; split; [reflexivity|].
    apply bind_guard; split; [rewrite E5; exact G4|]. apply bind_guard; split; [|reflexivity].
    destruct (existsb (fun x => Qltb x 0) (d_lw p)) eqn:Z; auto. apply existsb_exists in Z as [x [Hx Z]].
    apply (In_nth _ _ 0%Q) in Hx as [i [_ Ei]]. subst x. apply Qltb_lt in Z. specialize (P' i). lra.
  - cbn [n_plies middle_ply_index has_middle_ply weighting area target lw_ini].
    do 6 (split; [solve [congruence | reflexivity]|]).
    split. { rewrite FT'. destruct (filter_target_ok c (target (d_panel p)) LT) as [t' Et]. rewrite Et.
      f_equal. exact (C58_targets_idempotent c _ _ _ FT Et). }
    exists w''. rewrite FW'. auto.
Qed.

(** the panels saved can be read back when each has a neighbour and one has at least two; they are then
    the panels saved *)
Theorem C92_panels_partial : forall c c' coeff ps, (0 <= coeff)%Q -> same_rules c c' -> Forall (ready c coeff) ps ->
  (forall p, In p ps -> d_nbs p <> []) -> (exists p, In p ps /\ (2 <= length (d_nbs p))%nat) ->
  exists t rs, save_panels ps = Ok t /\ read_panels t = Ok rs /\ Forall2 (same_panel c' coeff) ps rs.
Proof.
  intros c c' coeff ps C SR R NE [p2 [I2 L2]].
  assert (A : exists t, save_panels ps = Ok t /\ mapM (fun r => at_column r KNbs) t = Ok (map (fun p => join (d_nbs p)) ps) /\
    exists rs, mapM (fun rn => read_row (fst rn) (snd rn)) (List.combine t (map (fun p => join (d_nbs p)) ps)) = Ok rs /\
    Forall2 (same_panel c' coeff) ps rs).
  { clear I2. induction R as [|p ps R1 R2 IH].
    - exists []. split; [reflexivity|]. split; [reflexivity|]. exists []. split; [reflexivity|constructor].
    - destruct IH as (t & E1 & E2 & rs & E3 & E4); [intros q Hq; apply NE; right; auto|].
      destruct (ready_lengths c coeff p R1) as (LT & LI & LW). destruct (save_row p LT LI LW) as (row & F1 & F2 & F3).
      exists (row :: t). unfold save_panels in *. cbn [mapM map List.combine fst snd]. rewrite F1, E1. cbn [bind].
      split; [reflexivity|]. rewrite F2, E2. cbn [bind]. split; [reflexivity|].
      rewrite F3. destruct (d_nbs p) as [|n l] eqn:En; [destruct (NE p (or_introl eq_refl) En)|].
      cbn [join split bind]. rewrite E3. cbn [bind]. eexists. split; [reflexivity|]. constructor; auto.
      rewrite <- En. apply (row_back c); auto. }
  destruct A as (t & E1 & E2 & rs & E3 & E4). exists t, rs. split; auto. split; auto.
  unfold read_panels. rewrite E2. cbn [bind]. unfold read_column.
  replace (forallb numeric_text (map (fun p => join (d_nbs p)) ps)) with false; [exact E3|].
  symmetry. apply not_true_iff_false. rewrite forallb_forall. intros X.
  specialize (X (join (d_nbs p2)) (in_map (fun p => join (d_nbs p)) ps p2 I2)).
  destruct (d_nbs p2) as [|x [|y l]]; cbn in L2; try lia. discriminate X.
Qed.
Print Assumptions C92_panels_partial.

(** otherwise they cannot *)
Theorem C92_panels_unreadable : forall c coeff ps t, Forall (ready c coeff) ps -> ps <> [] ->
  save_panels ps = Ok t ->
  (exists p, In p ps /\ d_nbs p = []) \/ (forall p, In p ps -> (length (d_nbs p) <= 1)%nat) ->
  exists e, read_panels t = Err e.
Proof.
  intros c coeff ps t R NE ST H.
  assert (B : mapM (fun r => at_column r KNbs) t = Ok (map (fun p => join (d_nbs p)) ps)).
  { clear H NE. revert t ST. induction R as [|p ps R1 R2 IH]; intros t ST; unfold save_panels in ST; cbn [mapM] in ST.
    - injection ST as <-. reflexivity.
    - destruct (ready_lengths c coeff p R1) as (LT & LI & LW). destruct (save_row p LT LI LW) as (row & F1 & F2 & F3).
      rewrite F1 in ST. cbn [bind] in ST. apply bind_ok in ST as [t' [E ST]]. injection ST as <-.
      cbn [mapM map]. rewrite F2, (IH t' E). reflexivity. }
  unfold read_panels. rewrite B. cbn [bind].
  set (cells := read_column _).
  assert (Lc : length cells = length ps).
  { unfold cells, read_column. destruct (forallb _ _); rewrite ?map_length; auto. }
  assert (BAD : exists x, In x cells /\ exists e, split x = Err e).
  { unfold cells, read_column. destruct H as [[p [Ip Ep]]|H].
    - exists CBlank. split; [|eexists; reflexivity].
      assert (X : In CBlank (map (fun p => join (d_nbs p)) ps)) by (apply in_map_iff; exists p; rewrite Ep; auto).
      destruct (forallb _ _); auto. apply in_map_iff. exists CBlank. auto.
    - destruct ps as [|p ps]; [congruence|].
      replace (forallb numeric_text (map (fun p => join (d_nbs p)) (p :: ps))) with true.
      + exists (as_number (join (d_nbs p))). split; [left; reflexivity|].
        pose proof (H p (or_introl eq_refl)) as X. destruct (d_nbs p) as [|x [|y l]]; cbn in X; try lia; eexists; reflexivity.
      + symmetry. apply forallb_forall. intros x Hx. apply in_map_iff in Hx as [q [<- Hq]].
        pose proof (H q Hq) as X. destruct (d_nbs q) as [|x [|y l]]; cbn in X; try lia; reflexivity. }
  destruct (mapM _ (List.combine t cells)) as [rs|e] eqn:E; [|eauto]. exfalso.
  assert (Lt : length t = length ps).
  { clear - ST. revert t ST. unfold save_panels. induction ps as [|p ps IH]; intros t ST; cbn [mapM] in ST.
    - injection ST as <-. reflexivity.
    - apply bind_ok in ST as [r [_ ST]]. apply bind_ok in ST as [t' [E ST]]. injection ST as <-. cbn. f_equal. auto. }
  destruct BAD as [x [Ix [e Ex]]].
  assert (K : forall t cells rs, length t = length cells -> In x cells -> mapM (fun rn => read_row (fst rn) (snd rn)) (List.combine t cells) = Ok rs -> False).
  { clear - Ex. induction t as [|r t IH]; intros [|y cells] rs L I M; cbn in L; try discriminate; [destruct I|].
    cbn [List.combine mapM fst snd] in M. apply bind_ok in M as [rp [M1 M]]. apply bind_ok in M as [rs' [M2 _]].
    destruct I as [->|I]; [|apply (IH cells rs'); auto; congruence].
    unfold read_row in M1. do 5 (apply bind_ok in M1 as [? [_ M1]]). rewrite Ex in M1. discriminate. }
  apply (K t cells rs); auto. congruence.
Qed.
Print Assumptions C92_panels_unreadable.

(* ------------------------------------------------------------------ *)
(** * Cases *)

(** arguments and constraints of the cases *)
Definition args_setup : cargs := {|
  a_sym := true; a_bal := true; a_oopo := true; a_dam_tol := true; a_rule_10_percent := true; a_rule_10_Abdalla := false;
  a_percent_Abdalla := 0; a_combine_45_135 := true; a_calc_combine_45_135 := true;
  a_percent_0 := 10; a_percent_45 := 0; a_percent_90 := 10; a_percent_135 := 0; a_percent_45_135 := 15;
  a_diso := true; a_contig := true; a_n_contig := 5; a_delta_angle := 45;
  a_dam_tol_rule := 1; a_set_of_angles := [0; 45; 90; -45; 30; -30]; a_min_drop := 2;
  a_pdl_spacing := true; a_covering := true; a_n_covering := 1 |}.
Definition cons_setup : cons := match mk_cons args_setup with Ok c => c | Err _ => Build_cons false false false false false 0 false 0 false false 0 0 0 0 0 0 0 false 0 false 0 None [] [] false 0 end.
Example C39_objective_function_example : exists c c' o o', mk_cons args_setup = Ok c /\ mk_cons default_args = Ok c' /\
  let g := {| g_diso := 2; g_contig := 3; g_10 := 4; g_bal_ipo := 5; g_oopo := 6; g_spacing := 7; g_modes := 2 |} in
  mk_obj c g = Ok o /\ coeff_diso o = 2%Q /\ coeff_10 o = 4%Q /\ mk_obj c' g = Ok o' /\ coeff_diso o' = 0%Q /\ coeff_10 o' = 0%Q.
Proof.
  destruct (mk_cons args_setup) as [c|] eqn:E; [|vm_compute in E; discriminate]. destruct (mk_cons default_args) as [c'|] eqn:E'; [|vm_compute in E'; discriminate].
  exists c, c'. vm_compute in E, E'. injection E as <-. injection E' as <-. do 2 eexists. split; [reflexivity|]. split; [reflexivity|].
  split; [reflexivity|]. split; [reflexivity|]. split; [reflexivity|]. split; [reflexivity|]. split; reflexivity.
Qed.
Definition targets_setup : list Q := [1 # 10; 2 # 10; 3 # 10; 4 # 10; 5 # 10; 6 # 10; 0; 0; 1 # 10; 2 # 10; 3 # 10; 4 # 10]%Q.
Definition weights_setup : list Q := [1; 1; 1; 1; 0; 0; 0; 0; 2; 2; 1; 1]%Q.
Definition panel_setup (id : Z) (nbs : list Z) (n : Z) : dpanel :=
  let a := {| a_n := n; a_target := targets_setup; a_lw := weights_setup; a_area := 0%Q; a_lx := 2%Q; a_ly := 3%Q; a_weighting := 1%Q |} in
  match mk_panel cons_setup a, filter_target cons_setup targets_setup, filter_weightings cons_setup 1 weights_setup with
  | Ok p, Ok t, Ok (Some w) =>
    {| d_id := id; d_nbs := nbs; d_lx := 2; d_ly := 3; d_nx := 100; d_ny := 50; d_lw := w;
       d_panel := {| n_plies := n_plies p; middle_ply_index := middle_ply_index p; has_middle_ply := has_middle_ply p; target := t;
                     lw_ini := lw_ini p; area := area p; weighting := weighting p |} |}%Q
  | _, _, _ => {| d_id := 0; d_nbs := []; d_lx := 0; d_ly := 0; d_nx := 0; d_ny := 0; d_lw := [];
                  d_panel := {| n_plies := 0; middle_ply_index := 0; has_middle_ply := false; target := []; lw_ini := []; area := 0; weighting := 0 |} |}%Q
  end.

Lemma ready_setup id nbs n : 1 <= n -> ready cons_setup 1 (panel_setup id nbs n).
Proof.
  intros N.
  assert (SN : exists m, set_n_plies n (sym cons_setup) = Ok m).
  { unfold set_n_plies, guard. replace (n <? 1) with false by (symmetry; apply Z.ltb_ge; lia). cbn [bind]. destruct (_ && _)%bool; eauto. }
  destruct SN as [m Em].
  set (a := {| a_n := n; a_target := targets_setup; a_lw := weights_setup; a_area := 0%Q; a_lx := 2%Q; a_ly := 3%Q; a_weighting := 1%Q |}).
  assert (MP : mk_panel cons_setup a = Ok {| n_plies := n; middle_ply_index := snd m; has_middle_ply := fst m; target := targets_setup; lw_ini := weights_setup; area := (2 * 3)%Q; weighting := 1%Q |}).
  { unfold mk_panel, a. cbn [a_n a_target a_lw a_area a_lx a_ly a_weighting]. rewrite Em. reflexivity. }
  destruct (filter_target cons_setup targets_setup) as [t|e] eqn:ET; [|vm_compute in ET; discriminate].
  destruct (filter_weightings cons_setup 1 weights_setup) as [[w|]|e] eqn:EW; [|vm_compute in EW; discriminate|vm_compute in EW; discriminate].
  exists a. eexists. split; [exact MP|]. unfold panel_setup. fold a. rewrite MP, ET, EW.
  cbn [target lw_ini n_plies middle_ply_index has_middle_ply weighting d_panel d_lw]. repeat split; auto.
Qed.

(** three panels in a row: saved, read back and filtered again, with their constraints *)
Theorem C92_example : exists c' t rs,
  mk_cons args_setup = Ok cons_setup /\ same_rules cons_setup c' /\ Forall (ready cons_setup 1) [panel_setup 1 [2] 20; panel_setup 2 [1; 3] 25; panel_setup 3 [2] 30] /\
  save_panels [panel_setup 1 [2] 20; panel_setup 2 [1; 3] 25; panel_setup 3 [2] 30] = Ok t /\ read_panels t = Ok rs /\
  map r_nbs rs = [[2]; [1; 3]; [2]] /\ (percent_45_135 c' == 15 # 100)%Q /\ set_of_angles c' = [-45; -30; 0; 30; 45; 90].
Proof.
  assert (M : mk_cons args_setup = Ok cons_setup) by (vm_compute; reflexivity).
  destruct (C92_constraints args_setup cons_setup M) as (a' & c' & _ & _ & SR & _ & _ & _ & P & _).
  assert (R : Forall (ready cons_setup 1) [panel_setup 1 [2] 20; panel_setup 2 [1; 3] 25; panel_setup 3 [2] 30]).
  { repeat constructor; apply ready_setup; lia. }
  assert (N : forall id nbs n, 1 <= n -> d_nbs (panel_setup id nbs n) = nbs).
  { intros id nbs n Hn. unfold panel_setup.
    destruct (ready_setup id nbs n Hn) as (a & p0 & _).
    assert (SN : exists m, set_n_plies n (sym cons_setup) = Ok m).
    { unfold set_n_plies, guard. replace (n <? 1) with false by (symmetry; apply Z.ltb_ge; lia). cbn [bind]. destruct (_ && _)%bool; eauto. }
    destruct SN as [m Em]. unfold mk_panel. cbn [a_n]. rewrite Em. reflexivity. }
  destruct (C92_panels_partial cons_setup c' 1 _ ltac:(lra) SR R) as (t & rs & E1 & E2 & F).
  - intros p [<-|[<-|[<-|[]]]]; rewrite N by lia; discriminate.
  - exists (panel_setup 2 [1; 3] 25). split; [right; left; reflexivity|]. rewrite N by lia. cbn. lia.
  - exists c', t, rs. split; auto. split; auto. split; auto. split; auto. split; auto. split.
    + inversion F as [|x1 y1 l1 m1 A1 B1]. inversion B1 as [|x2 y2 l2 m2 A2 B2]. inversion B2 as [|x3 y3 l3 m3 A3 B3]. inversion B3. subst.
      cbn [map]. rewrite (proj1 (proj2 A1)), (proj1 (proj2 A2)), (proj1 (proj2 A3)). rewrite !N by lia. reflexivity.
    + split; [rewrite P; vm_compute; reflexivity|]. destruct SR as (_ & _ & _ & _ & _ & _ & _ & _ & _ & _ & _ & _ & _ & _ & _ & S4 & _). rewrite S4. vm_compute. reflexivity.
Qed.
Print Assumptions C92_example.

(** the area of a panel is lost: its weight becomes 0 *)
Theorem C92_area_refuted : ~ (forall c coeff p t rs r p', ready c coeff p -> (0 <= coeff)%Q ->
  In p t -> (exists tab, save_panels t = Ok tab /\ read_panels tab = Ok rs) -> In r rs -> r_id r = d_id p ->
  mk_panel c (r_args r) = Ok p' -> (calc_weight_panel 1 p' == calc_weight_panel 1 (d_panel p)))%Q.
Proof.
  intros H.
  assert (X := fun rs r p' => H cons_setup 1%Q (panel_setup 1 [2; 3] 20) [panel_setup 1 [2; 3] 20] rs r p' (ready_setup 1 [2; 3] 20 ltac:(lia)) ltac:(lra) (or_introl eq_refl)).
  eassert (Y := X _ _ _ (ex_intro _ _ (conj eq_refl eq_refl)) (or_introl eq_refl)).
  specialize (Y ltac:(vm_compute; reflexivity)).
  eassert (W := Y ltac:(vm_compute; reflexivity)). vm_compute in W. discriminate.
Qed.
Print Assumptions C92_area_refuted.

(** two neighbouring panels cannot be read back *)
Theorem C92_two_panels_refuted : ~ (forall c coeff ps t, (0 <= coeff)%Q -> Forall (ready c coeff) ps -> (2 <= length ps)%nat ->
  (forall p, In p ps -> d_nbs p <> []) -> save_panels ps = Ok t -> exists rs, read_panels t = Ok rs).
Proof.
  intros H.
  set (ps := [panel_setup 1 [2] 20; panel_setup 2 [1] 24]).
  assert (R : Forall (ready cons_setup 1) ps) by (repeat constructor; apply ready_setup; lia).
  destruct (save_panels ps) as [t|e] eqn:E; [|vm_compute in E; discriminate].
  destruct (H cons_setup 1%Q ps t ltac:(lra) R ltac:(cbn; lia)) as [rs Hr]; auto.
  - intros p [<-|[<-|[]]]; vm_compute; discriminate.
  - destruct (C92_panels_unreadable cons_setup 1 ps t R ltac:(discriminate) E) as [e He]; [|congruence].
    right. intros p [<-|[<-|[]]]; vm_compute; lia.
Qed.
Print Assumptions C92_two_panels_refuted.

(** the column of the penalties for the 10% rule, asked for by create_input_file_SST.py and
    create_input_file_horseshoe2.py, can only be written when the rule is applied to lamination parameters *)
Theorem C92_penalty_column : forall c dist pen n, length dist = n -> (0 < n)%nat ->
  ((exists l, penalty_10_column c dist pen n = Ok l) <-> rule_10_percent c = true /\ rule_10_Abdalla c = true) /\
  (forall l, penalty_10_column c dist pen n = Ok l -> l = dist).
Proof.
  intros c dist pen n L N. unfold penalty_10_column, penalty_10_value.
  destruct (rule_10_percent c && rule_10_Abdalla c)%bool eqn:E.
  - assert (M : mapM (index (VArr dist)) (seq 0 n) = Ok dist).
    { subst n. clear. assert (G : forall pre d, mapM (index (VArr (pre ++ d))) (seq (length pre) (length d)) = Ok d).
      { intros pre d. revert pre. induction d as [|x d IH]; intros pre; [reflexivity|]. cbn [length seq mapM].
        unfold index at 1, at_. rewrite nth_error_app2, Nat.sub_diag by lia. cbn [nth_error bind].
        specialize (IH (pre ++ [x])). rewrite app_length in IH. cbn [length] in IH. rewrite Nat.add_1_r, <- app_assoc in IH. cbn [List.app] in IH.
        rewrite IH. reflexivity. }
      exact (G [] dist). }
    apply andb_true_iff in E. split; [split; eauto|]. intros l H. congruence.
  - split.
    + split; [|intros [A B]; rewrite A, B in E; discriminate]. intros [l H]. destruct n; [lia|]. cbn in H. discriminate.
    + intros l H. destruct n; [lia|]. cbn in H. discriminate.
Qed.
Print Assumptions C92_penalty_column.
