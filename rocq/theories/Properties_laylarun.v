(* Properties_laylarun.v - C89: the single-laminate optimiser put together. *)
From Coq Require Import Lqa.
From Verif Require Import Base Uniq Divers DiversProofs Constraints Guidelines SpecGuidelines GuidelinesProofs ConstraintsProofs GateProofs Moments Search
  Divide DivideProofs Membrane RepairMp RepairSs Properties_repairss Inputs Properties_inputs Layla Properties_layla Properties_layla2 LaylaSearch Properties_laylabeam Properties_laylaouter
  LaylaInputs Properties_laylainputs LaylaRun.
Local Open Scope Z_scope.

(* ------------------------------------------------------------------ *)
(** ** Specification *)
(** the penalties that the run is given are not negative *)
Definition pieces_ok (x : pieces) : Prop :=
  ((forall l, 0 <= x_pen_10 x l) /\ (forall k l, 0 <= x_pen_bal x k l) /\ (forall k l, 0 <= x_pen_ipo x k l) /\ (forall k l, 0 <= x_pen_oopo x k l))%Q.
(** the angle is one of those of the constraints, -90 being the same direction as 90 *)
Definition direction_of (c : cons) (a : Z) : Prop := In a (set_of_angles c) \/ (a = -90 /\ In 90 (set_of_angles c)).
(** the stack satisfies the lay-up rules that LAYLA's lay-up check can evaluate *)
Record obeys (lampamA34 : list Z -> Q * Q) (c : cons) (ss : list Z) : Prop := {
  o_dam_tol : dam_tol c = true ->
    (dam_tol_rule c = 1%nat -> damtol1 ss) /\ (dam_tol_rule c = 2%nat -> damtol2 ss) /\ (dam_tol_rule c = 3%nat -> damtol3 ss);
  o_balance : bal c = true -> balanced ss;
  o_ipo : ipo c = true -> (Qabs (fst (lampamA34 ss)) <= 1 # 10000000000 /\ Qabs (snd (lampamA34 ss)) <= 1 # 10000000000)%Q;
  o_diso : diso c = true -> ~ In (-90) ss ->
    (dam_tol c = false -> diso_stack (delta_angle c) ss) /\
    (dam_tol c = true -> (dam_tol_rule c = 2 \/ dam_tol_rule c = 3)%nat -> forall m, inner_of ss m -> diso_stack (delta_angle c) m);
  o_contig : contig c = true -> (2 <= n_contig c <= 6)%nat -> contig_stack (n_contig c) ss }.

(* ------------------------------------------------------------------ *)
Lemma nonneg_coeffs c a p : mk_layla_params c a = Ok p -> (0 <= w_coeff_10 p /\ 0 <= w_coeff_bal_ipo p /\ 0 <= w_coeff_oopo p)%Q.
Proof.
  intros H. apply C88_parameters in H. destruct H. unfold coefficient in *.
  destruct (rule_10_percent c), (ipo c), (oopo c);
    repeat match goal with H : _ /\ _ |- _ => destruct H end; repeat split; try assumption;
    repeat match goal with H : ?x = 0%Q |- context [?x] => rewrite H end; lra.
Qed.

Lemma step_facts c a p n x : mk_layla_params c a = Ok p -> pieces_ok x ->
  forall r, layla c p n x = Ok r ->
  exists sizes levels assumed lp obj stats full,
    l_outer_step (layla_problem c p n x) (x_final x) levels sizes assumed = Ok (r_ss r, lp, obj, stats) /\
    length full = n /\ x_repair x full = Ok (r_ss r, true) /\ layla_gate (x_lampamA34 x) c (r_ss r) = Ok tt /\ length (r_ss r) = n.
Proof.
  intros MP PO r H. unfold layla in H.
  destruct (C77_result _ _ _ _ _ _ _ _ _ _ _ H) as [outs [L [Lb [St [_ [Bb [B _]]]]]]].
  destruct (St _ _ B) as [[[sizes [levels [assumed [[[q [g Dv]] [Lv As]] Se]]]] [Ga [Ln _]]] _]. cbn [o_ss] in Ga, Ln.
  unfold layla_step in Se. apply bind_inv in Se as [[[[ss lp] obj] stats] [Os Se]]. injection Se as Ess _ _. subst ss.
  set (k := (r_best_step r - 1)%nat) in *.
  assert (Hk : 0 <= Z.of_nat k < w_outer p) by lia.
  destruct (C88_group_sizes c a p MP (Z.of_nat k) Hk) as [gm [Gm [Mm _]]].
  destruct (C72_levels_of_division (sym c) (w_group_min p) (w_group_max p) (Z.of_nat k) n sizes q g gm Gm Mm Dv) as [levels' [E1 [E2 _]]].
  assert (levels' = levels) by congruence. subst levels'.
  assert (Ll : length levels = length sizes) by (rewrite <- E2, map_length; reflexivity).
  assert (La : length assumed = length sizes).
  { destruct (previous_stack outs k) as [ss'|]; [|subst assumed; apply map_length].
    unfold lampam_assumed in As. rewrite <- Ll. clear -As. revert assumed As. induction levels as [|l t IH]; intros assumed As; cbn [mapM] in As.
    - injection As as <-. reflexivity.
    - apply bind_inv in As as [y [_ As]]. apply bind_inv in As as [ys [E As]]. injection As as <-. cbn [length]. f_equal. apply IH. exact E. }
  assert (Sz : sizes <> [] /\ forall s, In s sizes -> 1 <= s).
  { destruct (Classical_div (sym c) {| Divide.g_min := w_group_min p; Divide.g_max := gm |} (Z.of_nat n) Mm) as [Hex|N].
    - destruct (C71_division_partial (sym c) (w_group_min p) (w_group_max p) (Z.of_nat k) (Z.of_nat n) gm Gm Mm ltac:(lia) Hex) as [sz [y [q' [E' [B1 [B2 _]]]]]].
      rewrite Dv in E'. injection E' as -> _ _. split; [destruct sz; discriminate|]. intros s Hs. apply in_app_or in Hs as [Hs|[<-|[]]]; [apply B1 in Hs; lia|].
      assert (0 <= (if sym c then Z.of_nat n mod 2 else 0)) by (destruct (sym c); [apply Z.mod_pos_bound|]; lia). lia.
    - exfalso. destruct (C71_no_division (sym c) (w_group_min p) (w_group_max p) (Z.of_nat k) (Z.of_nat n)) as [e Ee]; [|congruence].
      intros gm' Hm'. assert (gm' = gm) by congruence. subst. split; auto. }
  destruct Sz as [S1 S2].
  assert (Pn : penalties_not_negative (layla_problem c p n x)).
  { destruct PO as [P1 [P2 [P3 P4]]]. destruct (nonneg_coeffs c a p MP) as [N1 [N2 N3]]. unfold penalties_not_negative. cbn. auto 10. }
  destruct (C80_stack (layla_problem c p n x) (x_final x) levels sizes assumed _ lp obj stats Pn S1 S2 Ll La Os) as [hs [h [_ [F1 [F2 [F3 _]]]]]].
  exists sizes, levels, assumed, lp, obj, stats. eexists. split; [exact Os|]. split; [exact F1|]. split; [exact F2|]. split; [exact F3|exact Ln].
Qed.

Lemma layla_gate_spec orc c ss : (dam_tol c = true -> (1 <= dam_tol_rule c <= 3)%nat) -> (2 <= length ss)%nat ->
  (forall a, In a ss -> a = -90 \/ -90 < a <= 90) ->
  layla_gate orc c ss = Ok tt -> obeys orc c ss /\ rule_10_percent c = false.
Proof.
  intros K Hlen Ha H. unfold layla_gate in H. rewrite bind_unit in H. destruct H as [H G]. split; [|destruct (rule_10_percent c); [discriminate|reflexivity]].
  unfold check_lay_up_rules in H. rewrite !bind_unit, !if_ok, !check_ok in H. cbn [negb andb] in H.
  destruct H as (_ & H1 & H2 & H3 & H4 & H5 & _). cbn [without_10 dam_tol bal ipo diso delta_angle dam_tol_rule contig n_contig] in *.
  assert (Hne : ss <> []) by (intros ->; cbn in Hlen; lia).
  split.
  - intros D. specialize (H1 D). split; [|split]; intros R.
    + destruct (is_dam_tol_1 ss (without_10 c) D R Hne) as [b [E Hb]]. apply Hb. congruence.
    + destruct (is_dam_tol_2 ss (without_10 c) D R Hlen) as [b [E Hb]]. apply Hb. congruence.
    + destruct (is_dam_tol_3 ss (without_10 c) D R Hlen) as [b [E Hb]]. apply Hb. congruence.
  - intros B. apply is_balanced_spec. specialize (H2 B). congruence.
  - intros B. specialize (H3 B). injection H3 as H3. apply negb_true_iff in H3. apply gate_ipo_spec. exact H3.
  - intros D N. assert (Hang : Forall angle_ok ss).
    { apply Forall_forall. intros a I. unfold angle_ok. destruct (Ha a I) as [->|]; [contradiction|lia]. }
    specialize (H4 D). split; intros T; rewrite T in H4.
    + cbn [is_diso_ss] in H4. injection H4 as H4. apply diso_all_spec in H4; auto.
    + intros R. destruct (is_diso_ss_inner ss (delta_angle c) _ Hang R) as [b [E Hb]]. apply Hb. congruence.
  - intros C R. specialize (H5 C). destruct (is_contig_spec (n_contig c) ss R) as [b [E Hb]]. apply Hb. congruence.
Qed.

(** Whatever repair is used: a stacking sequence that is returned has the number of plies asked
    for, only plies of the allowed directions, is the result of a successful repair of a laminate
    of that size and obeys the lay-up rules *)
Theorem C89_design : forall ca c pa p n x r,
  mk_layla_cons ca = Ok c -> mk_layla_params c pa = Ok p -> (2 <= n)%nat -> pieces_ok x ->
  layla c p n x = Ok r ->
  length (r_ss r) = n /\ (forall a, In a (r_ss r) -> direction_of c a) /\ obeys (x_lampamA34 x) c (r_ss r) /\
  exists full, length full = n /\ x_repair x full = Ok (r_ss r, true).
Proof.
  intros ca c pa p n x r MC MP Hn PO H.
  destruct (step_facts c pa p n x MP PO r H) as (sizes & levels & assumed & lp & obj & stats & full & Os & L & R & G & Ln).
  pose proof (C88_constraints_hold ca c MC) as K. pose proof (proj1 (C88_constraints_accepted ca) (ex_intro _ c MC)) as V.
  assert (D : forall a, In a (r_ss r) -> direction_of c a).
  { intros a I. destruct (C80_objective _ _ _ _ _ _ _ _ _ Os) as [_ [_ [_ [N _]]]]. specialize (N a I). cbn [l_cons layla_problem] in N.
    unfold direction_of. destruct (ind_angle (set_of_angles c) a) as [i|] eqn:E; [|congruence]. clear -E. unfold ind_angle in E.
    assert (M : forall b, Uniq.index_of b (set_of_angles c) = Some i -> In b (set_of_angles c)).
    { intros b Eb. apply Uniq.index_of_some in Eb as [_ [Eb _]]. eapply nth_error_In; eauto. }
    destruct (Z.eqb_spec a (-90)) as [->|]; cbn [andb] in E; [|left; apply M; exact E].
    destruct (memb 90 (set_of_angles c)); [right; split; [reflexivity|apply M; exact E]|left; apply M; exact E]. }
  split; [exact Ln|]. split; [exact D|]. split; [|exists full; auto].
  apply (layla_gate_spec (x_lampamA34 x) c (r_ss r)); [|lia| |exact G].
  - intros T. destruct K, V. rewrite h_rule, T. apply v_rule. rewrite h_dam_tol, T. reflexivity.
  - intros a I. destruct (D a I) as [J|[-> _]]; [right|left; reflexivity]. apply (h_angles _ _ K) in J. apply (v_range _ V). exact J.
Qed.
Print Assumptions C89_design.

(** refuted: with the 10% rule the optimiser never returns, whatever repair is used *)
Theorem C89_ten_percent_refuted : forall c p n x, rule_10_percent c = true -> forall r, layla c p n x <> Ok r.
Proof.
  intros c p n x R r H. unfold layla in H. destruct (C77_feasible _ _ _ _ _ _ _ _ _ _ _ H) as [G _].
  unfold layla_gate in G. rewrite bind_unit, R in G. destruct G as [_ G]. discriminate.
Qed.
Print Assumptions C89_ten_percent_refuted.

(** refuted: with the repair as it is called, the optimiser never returns a design *)
Theorem C89_returns_refuted : forall ca c pa p n x cos_sin distA target fuel,
  mk_layla_cons ca = Ok c -> mk_layla_params c pa = Ok p -> pieces_ok x ->
  x_repair x = layla_repair cos_sin distA target fuel c p -> forall r, layla c p n x <> Ok r.
Proof.
  intros ca c pa p n x cs distA target fuel MC MP PO E r H.
  destruct (step_facts c pa p n x MP PO r H) as (sizes & levels & assumed & lp & obj & stats & full & _ & _ & R & _).
  rewrite E in R. unfold layla_repair in R. destruct (rule_10_percent c); [discriminate|]. cbv zeta in R.
  apply bind_inv in R as [[[t b] o] [R Q]]. injection Q as -> ->. exact (C63_objective_refuted _ _ _ _ _ _ _ _ _ _ R).
Qed.
Print Assumptions C89_returns_refuted.

(* ------------------------------------------------------------------ *)
(** ** Example: 12 plies, symmetric, balanced, damage tolerance, disorientation, contiguity; a repair
    that accepts balanced laminates; and the repair of the code, on the way of which there is a
    laminate that it repairs *)
Definition run_cons : lcargs :=
  {| y_sym := VBool true; y_bal := VBool true; y_ipo := VBool false; y_oopo := VBool false; y_dam_tol := VBool true; y_rule_10 := VBool false;
     y_0 := VInt 0; y_45 := VInt 0; y_90 := VInt 0; y_135 := VInt 0; y_45_135 := VInt 0;
     y_diso := VBool true; y_contig := VBool true; y_n_contig := 2; y_delta := 45; y_dam_rule := 2; y_angles := [0; 45; 90; -45] |}.
Definition run_params : lpargs :=
  {| z_outer := VInt 2; z_coeff_10 := VInt 0; z_coeff_bal_ipo := VInt 1; z_coeff_oopo := VInt 1; z_group_min := VInt 2; z_group_max := Size (VInt 3);
     z_sens := repeat 1%Q 12; z_tbo := repeat 1%Q 12;
     z_global := VInt 5; z_global_p := VInt 5; z_local := VInt 4; z_local_final := VInt 4; z_membrane := VBool false; z_flexural := VBool true;
     z_p_A := VInt 100; z_n_D1 := VInt 6; z_n_D2 := VInt 10; z_n_D3 := VInt 1;
     z_10_lampam := VBool false; z_10_pc := VBool false; z_bal := VBool false; z_ipo := VBool false |}.
Definition run_pieces (repair : list Z -> result (list Z * bool)) : pieces :=
  {| x_cos_sin := fun _ _ => 0%Q; x_lampam_of := fun _ _ => 0%Q; x_lampamA34 := fun _ => (0%Q, 0%Q); x_objective := fun _ _ => 1%Q;
     x_final := {| f_objective := fun _ => 1%Q; f_pen_10 := fun _ => 0%Q; f_pen_bal := fun _ => 0%Q; f_pen_ipo := fun _ => 0%Q; f_pen_oopo := fun _ => 0%Q |};
     x_pen_10 := fun _ => 0%Q; x_pen_bal := fun _ _ => 0%Q; x_pen_ipo := fun _ _ => 0%Q; x_pen_oopo := fun _ _ => 0%Q; x_repair := repair |}.
Definition table (a : Z) (k : nat) : Q :=
  if a =? 0 then nth k [1; 1; 0; 0]%Q 0%Q else if a =? 45 then nth k [0; -(1); 1; 0]%Q 0%Q else if a =? -45 then nth k [0; -(1); -(1); 0]%Q 0%Q else nth k [-(1); 1; 0; 0]%Q 0%Q.
Example C89_example : exists c p r, mk_layla_cons run_cons = Ok c /\ mk_layla_params c run_params = Ok p /\
  layla c p 12 (run_pieces (fun ss => Ok (ss, is_balanced ss))) = Ok r /\ r_ss r = [45; -45; 90; 45; 90; -45; -45; 90; 45; 90; -45; 45] /\ r_steps r = 2%nat /\
  (forall repair, pieces_ok (run_pieces repair)) /\
  layla c p 12 (run_pieces (layla_repair table (fun _ => 0%Q) (repeat (1 # 10)%Q 12) 50 c p)) = Err TypeError.
Proof.
  do 3 eexists. split; [vm_compute; reflexivity|]. split; [vm_compute; reflexivity|]. split; [vm_compute; reflexivity|]. split; [reflexivity|]. split; [reflexivity|].
  split; [intros repair; unfold pieces_ok; cbn; repeat split; intros; lra|]. vm_compute. reflexivity.
Qed.
Print Assumptions C89_example.
