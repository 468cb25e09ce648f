(* Properties_givencells.v - property theorems C95, second part: every titled cell of the set-up
   sheets holds the value that the user gave under that title. *)
From Coq Require Import String.
From Verif Require Import Base Uniq Constraints Guidelines GuidelinesProofs SpecGuidelines ConstraintsProofs Properties_guidelines Panel PanelProofs Inputs Properties_inputs Layla LaylaInputs Properties_laylainputs SavedSetup Properties_savedsetup SavedParams Properties_savedparams.
From Coq Require Import Lqa Qminmax Qround.
Local Open Scope string_scope.
Local Open Scope list_scope.
Local Open Scope Z_scope.

(* ------------------------------------------------------------------ *)
(** ** Specification *)

(** the cell with the title [label] holds the number, or the switch, [v] *)
Definition shows (t : labelled) (label : string) (v : pyval) : Prop :=
  match SavedSetup.lookup t label with
  | Ok (CNum q) => exists r, the_number v r /\ (q == r)%Q
  | Ok (CBool b) => v = VBool b
  | _ => False
  end.
(** the cell with the title [label] holds the number [q] *)
Definition holds_number (t : labelled) (label : string) (q : Q) : Prop :=
  match SavedSetup.lookup t label with Ok (CNum x) => (x == q)%Q | _ => False end.

(* ------------------------------------------------------------------ *)
(** ** Parameters of BELLA *)
Lemma int_number v z : the_int v z -> exists r, the_number v r /\ (inject_Z z == r)%Q.
Proof. intros H. exists (inject_Z z). split; [right; eauto|reflexivity]. Qed.
Lemma number_self v q : the_number v q -> exists r, the_number v r /\ (q == r)%Q.
Proof. intros H. exists q. split; [exact H|reflexivity]. Qed.
Ltac cell := unfold shows, holds_number;
  lazy beta iota zeta delta [SavedSetup.lookup String.eqb Ascii.eqb Bool.eqb app save_bella_parameters save_layla_constraints save_layla_parameters
    save_constraints numbered String.append List.combine map fst snd int_cell];
  first [assumption | congruence | (apply int_number; assumption) | (apply number_self; assumption) | idtac].

Theorem C95_bella_parameters_given : forall a p, mk_params a = Ok p ->
  let t := save_bella_parameters p in
  shows t "number of initial ply drops" (i_n_ini a) /\ shows t "minimum group size" (i_group_size_min a) /\ shows t "maximum group size" (i_group_size_max a) /\
  shows t "global_node_limit" (i_global a) /\ shows t "global_node_limit_final" (i_global_final a) /\
  shows t "local_node_limit" (i_local a) /\ shows t "local_node_limit_final" (i_local_final a) /\
  shows t "input number of plies in reference panel" (i_ref a) /\
  shows t "repair_membrane_switch" (i_membrane a) /\ shows t "repair_flexural_switch" (i_flexural a) /\
  shows t "p_A" (i_p_A a) /\ shows t "n_D1" (i_n_D1 a) /\ shows t "n_D2" (i_n_D2 a) /\ shows t "n_D3" (i_n_D3 a) /\
  shows t "global_node_limit2" (i_global2 a) /\ shows t "local_node_limit2" (i_local2 a) /\
  shows t "global_node_limit3" (i_global3 a) /\ shows t "local_node_limit3" (i_local3 a).
Proof.
  intros a p E t. apply C69_parameters in E. destruct E. unfold limit in *. subst t.
  repeat match goal with H : _ /\ _ |- _ => destruct H end.
  repeat split; cell.
Qed.
Print Assumptions C95_bella_parameters_given.

(* ------------------------------------------------------------------ *)
(** ** Constraints of LAYLA *)
Lemma times_100 q r : (r * 100 == q)%Q -> (100 * r == q)%Q.
Proof. intros H. rewrite Qmult_comm. exact H. Qed.
Theorem C95_layla_constraints_given : forall a c broken, mk_layla_cons a = Ok c ->
  let t := save_layla_constraints c broken in
  shows t "symmetry" (y_sym a) /\ shows t "balance" (y_bal a) /\ shows t "out-of-plane orthotropy" (y_oopo a) /\
  (exists b, SavedSetup.lookup t "in-plane orthotropy" = Ok (CBool b) /\ (b = true <-> y_ipo a = VBool true \/ y_bal a = VBool true)) /\
  shows t "damage tolerance" (y_dam_tol a) /\ shows t "10% rule" (y_rule_10 a) /\ shows t "diso" (y_diso a) /\ shows t "contig" (y_contig a) /\
  (y_dam_tol a = VBool true -> holds_number t "dam_tol_rule" (inject_Z (Z.of_nat (y_dam_rule a)))) /\
  (y_diso a = VBool true -> holds_number t "delta_angle" (inject_Z (y_delta a))) /\
  (y_contig a = VBool true -> holds_number t "n_contig" (inject_Z (Z.of_nat (y_n_contig a)))) /\
  (y_rule_10 a = VBool true ->
   forall q0 q45 q90 q135 q45_135,
   the_number (y_0 a) q0 -> the_number (y_45 a) q45 -> the_number (y_90 a) q90 -> the_number (y_135 a) q135 -> the_number (y_45_135 a) q45_135 ->
   holds_number t "percent_0" q0 /\ holds_number t "percent_45" q45 /\ holds_number t "percent_90" q90 /\ holds_number t "percent_-45" q135 /\
   holds_number t "percent_+-45" (Qmax q45_135 (q45 + q135))) /\
  (y_rule_10 a = VBool false ->
   forall label, In label ["percent_0"; "percent_90"; "percent_45"; "percent_-45"; "percent_+-45"] -> holds_number t label 0) /\
  (exists l, StronglySorted Z.lt l /\ (forall x, In x l <-> In x (y_angles a)) /\ SavedSetup.lookup t "fibre orientations" = Ok (join l)).
Proof.
  intros a c broken E t. pose proof (C88_constraints_hold _ _ E) as K. destruct K. subst t.
  split; [cell|]. split; [cell|]. split; [cell|]. split; [exists (ipo c); split; [cell; reflexivity|exact h_ipo]|].
  split; [cell|]. split; [cell|]. split; [cell|]. split; [cell|].
  split; [intros H; assert (dam_tol c = true) as D by congruence; rewrite D in h_rule; cell; rewrite h_rule; reflexivity|].
  split; [intros H; assert (diso c = true) as D by congruence; rewrite D in h_delta; cell; rewrite h_delta; reflexivity|].
  split; [intros H; assert (contig c = true) as D by congruence; rewrite D in h_n_contig_c; cell; rewrite h_n_contig_c; reflexivity|].
  split; [|split].
  - intros H q0 q45 q90 q135 q45_135 N0 N1 N2 N3 N4. assert (rule_10_percent c = true) as D by congruence.
    destruct (h_minima D _ _ _ _ _ N0 N1 N2 N3 N4) as (M0 & M1 & M2 & M3 & M4 & _). clear h_minima.
    repeat split; cell; rewrite D; assumption.
  - intros H label Hl. assert (rule_10_percent c = false) as D by congruence.
    cbn [In] in Hl. destruct Hl as [<-|[<-|[<-|[<-|[<-|[]]]]]]; cell; rewrite D; reflexivity.
  - exists (set_of_angles c). repeat split; [exact h_sorted|apply h_angles|apply h_angles].
Qed.
Print Assumptions C95_layla_constraints_given.

(* ------------------------------------------------------------------ *)
(** ** Parameters of LAYLA; the numbered cells count from 1 *)
Theorem C95_layla_parameters_given : forall c a p, mk_layla_params c a = Ok p ->
  let t := save_layla_parameters p in
  shows t "maximum number of iterations" (z_outer a) /\ shows t "global_node_limit" (z_global a) /\ shows t "global_node_limit_p" (z_global_p a) /\
  shows t "local_node_limit" (z_local a) /\ shows t "local_node_limit_final" (z_local_final a) /\
  shows t "repair_membrane_switch" (z_membrane a) /\ shows t "repair_flexural_switch" (z_flexural a) /\
  shows t "p_A" (z_p_A a) /\ shows t "n_D1" (z_n_D1 a) /\ shows t "n_D2" (z_n_D2 a) /\ shows t "n_D3" (z_n_D3 a) /\
  shows t "minimum group size" (z_group_min a) /\
  (exists l, the_sizes (z_group_max a) (w_outer p) l /\ SavedSetup.lookup t "maximum group size" = Ok (join (map Qfloor l))) /\
  (rule_10_percent c = true -> shows t "penalty for the 10% rule (ply counts)" (z_10_pc a) /\ shows t "penalty for the 10% rule (lampam)" (z_10_lampam a) /\
     shows t "coeff for the 10% rule penalty" (z_coeff_10 a)) /\
  (bal c = true -> shows t "penalty for balance" (z_bal a)) /\
  (ipo c = true -> shows t "penalty for in-plane orthotropy" (z_ipo a) /\ shows t "coeff for in-plane orthotropy/balance penalty" (z_coeff_bal_ipo a)) /\
  (oopo c = true -> shows t "coeff for out-of plane orthotropy penalty" (z_coeff_oopo a)) /\
  (exists x1 x2 x3 x4 x5 x6 x7 x8 x9 x10 x11 x12, z_sens a = [x1; x2; x3; x4; x5; x6; x7; x8; x9; x10; x11; x12] /\
     holds_number t "first_level_sensitivities[1]" x1 /\ holds_number t "first_level_sensitivities[2]" x2 /\ holds_number t "first_level_sensitivities[3]" x3 /\
     holds_number t "first_level_sensitivities[4]" x4 /\ holds_number t "first_level_sensitivities[5]" x5 /\ holds_number t "first_level_sensitivities[6]" x6 /\
     holds_number t "first_level_sensitivities[7]" x7 /\ holds_number t "first_level_sensitivities[8]" x8 /\ holds_number t "first_level_sensitivities[9]" x9 /\
     holds_number t "first_level_sensitivities[10]" x10 /\ holds_number t "first_level_sensitivities[11]" x11 /\ holds_number t "first_level_sensitivities[12]" x12) /\
  (exists x1 x2 x3 x4 x5 x6 x7 x8 x9 x10 x11 x12, z_tbo a = [x1; x2; x3; x4; x5; x6; x7; x8; x9; x10; x11; x12] /\
     holds_number t "lampam_to_be_optimised[1]" x1 /\ holds_number t "lampam_to_be_optimised[2]" x2 /\ holds_number t "lampam_to_be_optimised[3]" x3 /\
     holds_number t "lampam_to_be_optimised[4]" x4 /\ holds_number t "lampam_to_be_optimised[5]" x5 /\ holds_number t "lampam_to_be_optimised[6]" x6 /\
     holds_number t "lampam_to_be_optimised[7]" x7 /\ holds_number t "lampam_to_be_optimised[8]" x8 /\ holds_number t "lampam_to_be_optimised[9]" x9 /\
     holds_number t "lampam_to_be_optimised[10]" x10 /\ holds_number t "lampam_to_be_optimised[11]" x11 /\ holds_number t "lampam_to_be_optimised[12]" x12).
Proof.
  intros c a p E t. apply C88_parameters in E. destruct E. unfold limit, coefficient in *. clear s_weights s_finalA s_finalD s_one_ten s_one_bal.
  destruct s_outer as [so _], s_p_A as [sp _], s_min as [sm _], s_global as [sg _], s_global_p as [sgp _], s_local as [sl _], s_local_final as [slf _].
  destruct s_sens as (L1 & _ & W1), s_tbo as (L2 & _ & W2). rewrite <- W1 in L1. rewrite <- W2 in L2.
  destruct (twelve_numbers _ L1) as (x1 & x2 & x3 & x4 & x5 & x6 & x7 & x8 & x9 & x10 & x11 & x12 & Ex).
  destruct (twelve_numbers _ L2) as (y1 & y2 & y3 & y4 & y5 & y6 & y7 & y8 & y9 & y10 & y11 & y12 & Ey).
  subst t. unfold save_layla_parameters. rewrite Ex, Ey.
  do 12 (split; [cell|]).
  split; [destruct s_max as (l & M1 & M2 & _); exists l; split; [exact M1|rewrite <- M2; reflexivity]|].
  split; [intros R; rewrite R in s_ten; destruct s_ten as (A & B & C & _); repeat split; cell|].
  split; [intros R; rewrite R in s_bal; cell|].
  split; [intros R; rewrite R in s_ipo; destruct s_ipo as (A & B & _); repeat split; cell|].
  split; [intros R; rewrite R in s_oopo; destruct s_oopo as [A _]; cell|].
  split; [exists x1, x2, x3, x4, x5, x6, x7, x8, x9, x10, x11, x12|exists y1, y2, y3, y4, y5, y6, y7, y8, y9, y10, y11, y12];
    (split; [congruence|]); repeat split; cell; reflexivity.
Qed.
Print Assumptions C95_layla_parameters_given.

(** the minima of the 10% rule that is to be broken *)
Theorem C95_broken_minima : forall a c n, mk_layla_cons a = Ok n -> y_rule_10 a = VBool true ->
  let t := save_layla_constraints c (Some n) in
  forall q0 q45 q90 q135 q45_135,
  the_number (y_0 a) q0 -> the_number (y_45 a) q45 -> the_number (y_90 a) q90 -> the_number (y_135 a) q135 -> the_number (y_45_135 a) q45_135 ->
  holds_number t "percent_0 (no)" q0 /\ holds_number t "percent_45 (no)" q45 /\ holds_number t "percent_90 (no)" q90 /\ holds_number t "percent_-45 (no)" q135 /\
  holds_number t "percent_+-45 (no)" (Qmax q45_135 (q45 + q135)).
Proof.
  intros a c n E H t q0 q45 q90 q135 q45_135 N0 N1 N2 N3 N4. pose proof (C88_constraints_hold _ _ E) as K. destruct K.
  assert (rule_10_percent n = true) as D by congruence.
  destruct (h_minima D _ _ _ _ _ N0 N1 N2 N3 N4) as (M0 & M1 & M2 & M3 & M4 & _). clear h_minima.
  subst t. unfold save_layla_constraints, save_broken_rules. rewrite D.
  destruct (diso n), (contig n), (bal n), (ipo n); repeat split; cell; apply times_100; assumption.
Qed.
Print Assumptions C95_broken_minima.

(** an example: the sheets of a set-up of LAYLA *)
Example C95_given_example : exists c p, mk_layla_cons (ex_layla true 5) = Ok c /\ mk_layla_params c default_lparams = Ok p /\
  shows (save_layla_constraints c None) "percent_45" (VInt 5) /\ shows (save_layla_constraints c None) "percent_+-45" (VInt 8) /\
  shows (save_layla_parameters p) "global_node_limit" (z_global default_lparams) /\
  holds_number (save_layla_constraints c (Some c)) "percent_90 (no)" 10.
Proof.
  destruct (mk_layla_cons (ex_layla true 5)) as [c|] eqn:E; [|vm_compute in E; discriminate].
  destruct (mk_layla_params c default_lparams) as [p|] eqn:P; [|vm_compute in E; injection E as <-; vm_compute in P; discriminate].
  exists c, p. split; [reflexivity|]. split; [exact P|].
  assert (I5 : the_number (VInt 5) 5) by (right; exists 5; split; [left; reflexivity|reflexivity]).
  assert (I8 : the_number (VInt 8) 8) by (right; exists 8; split; [left; reflexivity|reflexivity]).
  vm_compute in E. injection E as <-.
  split; [exists 5%Q; split; [exact I5|reflexivity]|]. split; [exists 8%Q; split; [exact I8|reflexivity]|].
  split; [|reflexivity]. destruct (C95_layla_parameters_given _ _ _ P) as (_ & G & _). exact G.
Qed.
