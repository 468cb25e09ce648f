(* Properties_savedparams.v - property theorems C95 (the saved set-up sheets identify the set-up). *)
From Coq Require Import String.
From Verif Require Import Base Uniq Constraints Guidelines GuidelinesProofs SpecGuidelines ConstraintsProofs Properties_guidelines Panel PanelProofs Inputs Properties_inputs Layla LaylaInputs Properties_laylainputs SavedSetup Properties_savedsetup SavedParams.
From Coq Require Import Lqa.
Local Open Scope string_scope.
Local Open Scope list_scope.
Local Open Scope Z_scope.

(* ------------------------------------------------------------------ *)
(** ** Specification *)

(** two cells that show the same: numbers are compared as numbers *)
Definition same_cell (x y : cell) : Prop := match x, y with CNum q, CNum r => (q == r)%Q | _, _ => x = y end.
(** under every label both sheets have the same cell, or none *)
Definition same_sheet (t u : labelled) : Prop := forall label,
  match SavedSetup.lookup t label, SavedSetup.lookup u label with
  | Ok x, Ok y => same_cell x y
  | Err _, Err _ => True
  | _, _ => False
  end.
Definition same_numbers : list Q -> list Q -> Prop := Forall2 Qeq.
Definition same_or_nan (u v : option (list Q)) : Prop :=
  match u, v with Some l, Some m => same_numbers l m | None, None => True | _, _ => False end.

(** the same percentages *)
Definition same_minima (c c' : cons) : Prop :=
  (percent_0 c == percent_0 c' /\ percent_45 c == percent_45 c' /\ percent_90 c == percent_90 c' /\
   percent_135 c == percent_135 c' /\ percent_45_135 c == percent_45_135 c')%Q.
(** the same parameters of LAYLA: what was given and the weightings made of it *)
Record same_parameters (p q : lparams) : Prop := {
  e_outer : w_outer p = w_outer q; e_10_pc : w_10_pc p = w_10_pc q; e_10_lampam : w_10_lampam p = w_10_lampam q;
  e_coeff_10 : (w_coeff_10 p == w_coeff_10 q)%Q; e_bal : w_bal p = w_bal q; e_ipo : w_ipo p = w_ipo q;
  e_bal_ipo : (w_coeff_bal_ipo p == w_coeff_bal_ipo q)%Q; e_oopo : (w_coeff_oopo p == w_coeff_oopo q)%Q;
  e_membrane : w_membrane p = w_membrane q; e_flexural : w_flexural p = w_flexural q; e_p_A : (w_p_A p == w_p_A q)%Q;
  e_D1 : w_n_D1 p = w_n_D1 q; e_D2 : w_n_D2 p = w_n_D2 q; e_D3 : w_n_D3 p = w_n_D3 q;
  e_group_min : w_group_min p = w_group_min q; e_group_max : w_group_max p = w_group_max q;
  e_global : w_global p = w_global q; e_global_p : w_global_p p = w_global_p q;
  e_local : w_local p = w_local q; e_local_final : w_local_final p = w_local_final q;
  e_sens : same_numbers (w_sens p) (w_sens q); e_tbo : same_numbers (w_tbo p) (w_tbo q);
  e_final : same_or_nan (w_final p) (w_final q); e_ini : same_numbers (w_ini p) (w_ini q);
  e_finalA : same_or_nan (w_finalA p) (w_finalA q); e_finalD : same_or_nan (w_finalD p) (w_finalD q) }.
(** the same parameters of BELLA *)
Record same_params (p q : params) : Prop := {
  f_gmin : o_group_size_min p = o_group_size_min q; f_gmax : o_group_size_max p = o_group_size_max q;
  f_global : o_global p = o_global q; f_local : o_local p = o_local q;
  f_local_final : o_local_final p = o_local_final q; f_global_final : o_global_final p = o_global_final q;
  f_global2 : o_global2 p = o_global2 q; f_local2 : o_local2 p = o_local2 q;
  f_global3 : o_global3 p = o_global3 q; f_local3 : o_local3 p = o_local3 q;
  f_n_ini : o_n_ini p = o_n_ini q; f_p_A : (o_p_A p == o_p_A q)%Q;
  f_D1 : o_n_D1 p = o_n_D1 q; f_D2 : o_n_D2 p = o_n_D2 q; f_D3 : o_n_D3 p = o_n_D3 q;
  f_membrane : o_membrane p = o_membrane q; f_flexural : o_flexural p = o_flexural q; f_ref : (o_ref p == o_ref q)%Q }.

(* ------------------------------------------------------------------ *)
(** ** Cells *)
Lemma inject_inj x y : (inject_Z x == inject_Z y)%Q -> x = y.
Proof. unfold Qeq, inject_Z. cbn. lia. Qed.
Lemma inject_eq x y : x = y -> (inject_Z x == inject_Z y)%Q.
Proof. intros ->. reflexivity. Qed.
Lemma nat_inj m n : (num_of_nat m == num_of_nat n)%Q -> m = n.
Proof. intros H. apply inject_inj in H. lia. Qed.
Lemma join_inj l m : same_cell (join l) (join m) -> l = m.
Proof. destruct l, m; cbn; intros H; congruence. Qed.
Lemma bool_cell b b' : same_cell (CBool b) (CBool b') -> b = b'.
Proof. cbn. congruence. Qed.

Ltac at_label H s X :=
  pose proof (H s) as X;
  lazy beta iota zeta delta [SavedSetup.lookup String.eqb Ascii.eqb Bool.eqb app save_bella_parameters save_layla_constraints save_layla_parameters
    save_constraints numbered String.append List.combine map fst snd] in X.

(** the parameters of BELLA: the sheet holds them all *)
Theorem C95_bella_parameters : forall p q,
  same_sheet (save_bella_parameters p) (save_bella_parameters q) <-> same_params p q.
Proof.
  intros p q. split.
  - intros H.
    at_label H "number of initial ply drops" X1. at_label H "minimum group size" X2. at_label H "maximum group size" X3.
    at_label H "global_node_limit" X4. at_label H "global_node_limit_final" X5. at_label H "local_node_limit" X6. at_label H "local_node_limit_final" X7.
    at_label H "input number of plies in reference panel" X8. at_label H "repair_membrane_switch" X9. at_label H "repair_flexural_switch" X10.
    at_label H "p_A" X11. at_label H "n_D1" X12. at_label H "n_D2" X13. at_label H "n_D3" X14.
    at_label H "global_node_limit2" X15. at_label H "local_node_limit2" X16. at_label H "global_node_limit3" X17. at_label H "local_node_limit3" X18.
    apply bool_cell in X9, X10. unfold same_cell, int_cell in *.
    constructor; solve [assumption|apply inject_inj; assumption].
  - intros [] label. unfold save_bella_parameters. cbn [SavedSetup.lookup].
    repeat match goal with |- context [String.eqb ?a label] => destruct (String.eqb a label);
      [unfold int_cell; cbn [same_cell]; first [assumption | congruence | apply inject_eq; congruence]|] end.
    exact Logic.I.
Qed.
Print Assumptions C95_bella_parameters.

(* ------------------------------------------------------------------ *)
(** ** Constraints *)
Lemma same_angles_bal angles angles' r sa sa' : set_fibre_orientations angles r = Ok sa -> set_fibre_orientations angles' r = Ok sa' ->
  fst sa = fst sa' -> sa = sa'.
Proof. intros A B E. apply set_fibre_again in A, B. rewrite E in A. congruence. Qed.
Lemma scaled_inj (r r' : bool) (x y : Q) : r = r' -> (r = false -> x == 0)%Q -> (r' = false -> y == 0)%Q ->
  ((if r then x * 100 else 0) == (if r' then y * 100 else 0))%Q -> (x == y)%Q.
Proof. intros <- A B E. destruct r; [lra|]. rewrite A, B by reflexivity. reflexivity. Qed.
Lemma unlimited_not (n : nat) : (Z.of_nat n < 10000000000) -> ~ (num_of_nat n == unlimited)%Q.
Proof. unfold num_of_nat, unlimited, inject_Z, Qeq. cbn. lia. Qed.

Lemma layla_built a c : mk_layla_cons a = Ok c ->
  (exists sa, set_fibre_orientations (y_angles a) (rule_10_percent c) = Ok sa /\ set_of_angles c = fst sa /\ angles_bal c = snd sa) /\
  covering c = false /\ n_covering c = 0%nat /\ rule_10_Abdalla c = false /\ pdl_spacing c = false /\ min_drop c = 1 /\
  n_contig c = (if contig c then y_n_contig a else 1%nat) /\ n_contig_c c = (if contig c then Some (y_n_contig a) else None).
Proof.
  unfold mk_layla_cons. intros H.
  repeat match type of H with bind ?r _ = Ok _ => let x := fresh "x" in let Hx := fresh "Hx" in apply Properties_inputs.bind_ok in H; destruct H as (x & Hx & H) end.
  destruct x3 as [[[[[q0 q45] q90] q135] q45_135] tot].
  repeat match type of H with bind ?r _ = Ok _ => let x := fresh "x" in let Hx := fresh "Hx" in apply Properties_inputs.bind_ok in H; destruct H as (x & Hx & H) end.
  match type of H with Ok ?z = _ => assert (c = z) as -> by congruence end.
  cbn [rule_10_percent set_of_angles angles_bal covering n_covering rule_10_Abdalla pdl_spacing min_drop n_contig n_contig_c contig].
  split; [eexists; split; [eassumption|auto]|repeat split].
Qed.

Lemma layla_tot a c : mk_layla_cons a = Ok c -> (percent_tot c == percent_0 c + percent_45_135 c + percent_90 c)%Q \/ rule_10_percent c = false.
Proof.
  intros E. destruct (rule_10_percent c) eqn:R; [left|auto]. pose proof (C88_constraints_hold _ _ E) as K. pose proof (proj1 (C88_constraints_accepted a) (ex_intro _ c E)) as V.
  destruct (v_0 _ V) as [q0 [N0 _]], (v_45 _ V) as [q1 [N1 _]], (v_90 _ V) as [q2 [N2 _]], (v_135 _ V) as [q3 [N3 _]], (v_45_135 _ V) as [q4 [N4 _]].
  pose proof (h_minima _ _ K R _ _ _ _ _ N0 N1 N2 N3 N4) as M. intuition.
Qed.

(** the constraints of LAYLA: the sheet tells which rules are in force and with what values *)
Theorem C95_layla_constraints : forall a a' c c', mk_layla_cons a = Ok c -> mk_layla_cons a' = Ok c' ->
  same_sheet (save_layla_constraints c None) (save_layla_constraints c' None) ->
  same_rules c c' /\ same_minima c c' /\ (percent_tot c == percent_tot c')%Q.
Proof.
  intros a a' c c' E E' H.
  at_label H "symmetry" X1. at_label H "balance" X2. at_label H "in-plane orthotropy" X3. at_label H "out-of-plane orthotropy" X4.
  at_label H "damage tolerance" X5. at_label H "dam_tol_rule" X6. at_label H "10% rule" X7.
  at_label H "percent_0" X8. at_label H "percent_45" X9. at_label H "percent_90" X10. at_label H "percent_-45" X11. at_label H "percent_+-45" X12.
  at_label H "diso" X13. at_label H "delta_angle" X14. at_label H "contig" X15. at_label H "n_contig" X16. at_label H "fibre orientations" X17.
  apply bool_cell in X1, X2, X3, X4, X5, X7, X13, X15. apply join_inj in X17. unfold same_cell, int_cell in *.
  apply nat_inj in X6. apply inject_inj in X14.
  destruct (layla_built _ _ E) as ((sa & Sa & A1 & A2) & B1 & B2 & B3 & B4 & B5 & B6 & B7).
  destruct (layla_built _ _ E') as ((sa' & Sa' & A1' & A2') & B1' & B2' & B3' & B4' & B5' & B6' & B7').
  assert (sa = sa') as <- by (rewrite <- X7 in Sa'; eapply same_angles_bal; eauto; congruence).
  pose proof (C88_constraints_hold _ _ E) as K. pose proof (C88_constraints_hold _ _ E') as K'.
  assert (M : same_minima c c').
  { destruct K as [K1 K2 K3 K4 K5 K6 K7 Z _ K8 K9 K10 K11 K12 K13 K14 K15]. destruct K' as [K1' K2' K3' K4' K5' K6' K7' Z' _ K8' K9' K10' K11' K12' K13' K14' K15'].
    repeat split; (eapply scaled_inj; [exact X7| | |eassumption]); intros F; [apply Z in F|apply Z' in F|apply Z in F|apply Z' in F|apply Z in F|apply Z' in F|apply Z in F|apply Z' in F|apply Z in F|apply Z' in F]; intuition. }
  assert (NC : n_contig c' = n_contig c /\ n_contig_c c' = n_contig_c c).
  { rewrite B6, B7, B6', B7', <- X15. rewrite B7, B7', <- X15 in X16. destruct (contig c); [|auto]. apply nat_inj in X16. rewrite X16. auto. }
  split; [|split; [exact M|]].
  - unfold same_rules. rewrite B1, B2, B3, B4, B5, B1', B2', B3', B4', B5', A2, A2', X1, X2, X3, X4, X5, X6, X7, X13, X14, X15, X17. destruct NC. repeat split; auto.
  - destruct M as (M1 & M2 & M3 & M4 & M5). destruct (rule_10_percent c) eqn:R.
    + destruct (layla_tot _ _ E) as [T|T]; [|congruence]. destruct (layla_tot _ _ E') as [T'|T']; [|congruence].
      rewrite T, T', M1, M3, M5. reflexivity.
    + pose proof (h_no_minima _ _ K R) as Z. pose proof (h_no_minima _ _ K' (eq_sym X7)) as Z'. destruct Z as (_ & _ & _ & _ & _ & ->), Z' as (_ & _ & _ & _ & _ & ->). reflexivity.
Qed.
Print Assumptions C95_layla_constraints.

(* ------------------------------------------------------------------ *)
(** ** Parameters of LAYLA *)
Definition rel_res {A} (R : A -> A -> Prop) (r r' : result A) : Prop :=
  match r, r' with Ok x, Ok y => R x y | Err _, Err _ => True | _, _ => False end.
Lemma rel_bind {A B} (R : A -> A -> Prop) (T : B -> B -> Prop) r r' f f' : rel_res R r r' -> (forall x y, R x y -> rel_res T (f x) (f' y)) ->
  rel_res T (bind r f) (bind r' f').
Proof. destruct r, r'; cbn; auto; try tauto. Qed.
Lemma same_length l m : same_numbers l m -> length l = length m.
Proof. induction 1; cbn; congruence. Qed.
Lemma same_refl l : same_numbers l l.
Proof. induction l; constructor; [reflexivity|assumption]. Qed.
Lemma same_app l l' m m' : same_numbers l l' -> same_numbers m m' -> same_numbers (l ++ m) (l' ++ m').
Proof. apply Forall2_app. Qed.
Lemma same_firstn n : forall l m, same_numbers l m -> same_numbers (firstn n l) (firstn n m).
Proof. induction n; intros l m H; cbn; [constructor|destruct H; constructor; auto; apply IHn; assumption]. Qed.
Lemma same_skipn n : forall l m, same_numbers l m -> same_numbers (skipn n l) (skipn n m).
Proof. induction n; intros l m H; cbn; [assumption|destruct H; [constructor|apply IHn; assumption]]. Qed.
Lemma same_sum l m : same_numbers l m -> (sumQ l == sumQ m)%Q.
Proof. induction 1 as [|x y l m E _ IH]; [reflexivity|]. change (x + sumQ l == y + sumQ m)%Q. rewrite E, IH. reflexivity. Qed.
Lemma same_map f f' l m : (forall x y, (x == y)%Q -> (f x == f' y)%Q) -> same_numbers l m -> same_numbers (map f l) (map f' m).
Proof. intros F. induction 1; cbn; constructor; auto. Qed.
Lemma same_products a b a' b' : same_numbers a a' -> same_numbers b b' -> same_numbers (products a b) (products a' b').
Proof.
  unfold products. intros A. revert b b'. induction A as [|x y l m E _ IH]; intros b b' B; cbn; [constructor|].
  destruct B; cbn; constructor; [|apply IH; assumption]. cbn [fst snd]. rewrite E, H. reflexivity.
Qed.
Lemma same_set_at i v v' l l' : (v == v')%Q -> same_numbers l l' -> rel_res same_numbers (set_at i v l) (set_at i v' l').
Proof.
  intros V L. unfold set_at. rewrite <- (same_length _ _ L). destruct (i <? length l)%nat; cbn; [|exact Logic.I].
  revert i. induction L; intros [|i]; cbn; constructor; auto. apply IHL.
Qed.
Lemma same_slice {A} (a b : nat) (l m : list A) : length l = length m -> map (fun _ => 0%Q) (slice a b l) = map (fun _ => 0%Q) (slice a b m).
Proof.
  intros L. assert (E : length (slice a b l) = length (slice a b m)) by (unfold slice; rewrite !firstn_length, !skipn_length; congruence).
  clear L. revert E. generalize (slice a b l) (slice a b m). induction l0 as [|x t IH]; intros [|y u] E; cbn in *; try discriminate; [reflexivity|]. f_equal. apply IH. congruence.
Qed.
Lemma same_zero_slice a b l m : same_numbers l m -> same_numbers (zero_slice a b l) (zero_slice a b m).
Proof.
  intros L. unfold zero_slice. apply same_app; [apply same_firstn; exact L|]. apply same_app; [|apply same_skipn; exact L].
  rewrite (same_slice a b l m (same_length _ _ L)). apply same_refl.
Qed.
Lemma same_non_zero l m : same_numbers l m -> same_numbers (non_zero l) (non_zero m).
Proof.
  unfold non_zero. induction 1 as [|x y l m E _ IH]; [constructor|]. cbn [filter].
  assert (B : Qeq_bool x 0 = Qeq_bool y 0) by (apply eq_true_iff_eq; rewrite !Qeq_bool_iff, E; reflexivity). rewrite B.
  destruct (negb (Qeq_bool y 0)); [constructor; assumption|assumption].
Qed.
Lemma same_average l m : same_numbers l m ->
  match average l, average m with Some x, Some y => (x == y)%Q | None, None => True | _, _ => False end.
Proof.
  intros L. pose proof (same_sum _ _ L) as S. pose proof (same_length _ _ L) as N. unfold average, zlen.
  destruct l, m; try discriminate; [exact Logic.I|]. rewrite S, N. reflexivity.
Qed.
Lemma same_cleared s st i o l m : same_numbers l m -> rel_res same_numbers (cleared_sensitivities s st i o l) (cleared_sensitivities s st i o m).
Proof.
  intros L. unfold cleared_sensitivities.
  assert (L' : same_numbers (if s then zero_slice 4 8 l else l) (if s then zero_slice 4 8 m else m)) by (destruct s; [apply same_zero_slice|]; exact L).
  eapply rel_bind.
  { destruct st; [|exact L']. eapply rel_bind; [apply same_set_at; [reflexivity|exact L']|]. intros x y X. eapply rel_bind; [apply same_set_at; [reflexivity|exact X]|].
    intros u v U. apply same_set_at; [reflexivity|exact U]. }
  intros x y X. eapply rel_bind.
  { destruct i; [|exact X]. eapply rel_bind; [apply same_set_at; [reflexivity|exact X]|]. intros u v U. apply same_set_at; [reflexivity|exact U]. }
  intros u v U. destruct o; [|exact U]. eapply rel_bind; [apply same_set_at; [reflexivity|exact U]|]. intros g h G. apply same_set_at; [reflexivity|exact G].
Qed.
Lemma same_orthotropy st i sw o ci ci' co co' k k' l m : (ci == ci')%Q -> (co == co')%Q -> (k == k')%Q -> same_numbers l m ->
  rel_res same_numbers (orthotropy_sensitivities st i sw o ci co k l) (orthotropy_sensitivities st i sw o ci' co' k' m).
Proof.
  intros C D K L. assert (KC : (k * ci == k' * ci')%Q) by (rewrite C, K; reflexivity). assert (KD : (k * co == k' * co')%Q) by (rewrite D, K; reflexivity).
  unfold orthotropy_sensitivities. destruct (i && sw && o)%bool; [|destruct (i && sw)%bool; [|destruct o; [|exact L]]]; destruct st;
  repeat first [apply same_set_at; assumption | eapply rel_bind; [apply same_set_at; eassumption|]; intros ].
Qed.
Lemma same_divided l m : same_numbers l m -> same_numbers (map (fun x => x / sumQ l)%Q l) (map (fun x => x / sumQ m)%Q m).
Proof. intros L. apply same_map; [|exact L]. intros x y E. rewrite E, (same_sum _ _ L). reflexivity. Qed.
Lemma same_normalised l m : same_numbers l m -> same_or_nan (Layla.normalised l) (Layla.normalised m).
Proof.
  intros L. unfold Layla.normalised. assert (B : Qeq_bool (sumQ l) 0 = Qeq_bool (sumQ m) 0) by (apply eq_true_iff_eq; rewrite !Qeq_bool_iff, (same_sum _ _ L); reflexivity).
  rewrite B. destruct (Qeq_bool (sumQ m) 0); cbn; [exact Logic.I|apply same_divided; exact L].
Qed.
Lemma same_weights s st i sw o ci ci' co co' se se' tb tb' w w' : (ci == ci')%Q -> (co == co')%Q -> same_numbers se se' -> same_numbers tb tb' ->
  weights_calculation s st i sw o ci co se tb = Ok w -> weights_calculation s st i sw o ci' co' se' tb' = Ok w' ->
  same_or_nan (fst w) (fst w') /\ same_numbers (snd w) (snd w').
Proof.
  intros C D SE TB. unfold weights_calculation. intros W W'.
  pose proof (same_products _ _ _ _ SE TB) as P. set (l := products se tb) in *. set (l' := products se' tb') in *. clearbody l l'.
  destruct (guard (Qeq_bool (sumQ l) 0) (Raised BadDefinition)); [|discriminate]. destruct (guard (Qeq_bool (sumQ l') 0) (Raised BadDefinition)); [|discriminate].
  cbn [bind] in W, W'. pose proof (same_divided _ _ P) as P2. set (m := map (fun x => x / sumQ l)%Q l) in *. set (m' := map (fun x => x / sumQ l')%Q l') in *. clearbody m m'.
  pose proof (same_cleared s st i o _ _ P2) as R. destruct (cleared_sensitivities s st i o m) as [r|], (cleared_sensitivities s st i o m') as [r'|]; try discriminate. cbn [bind rel_res] in *.
  pose proof (same_average _ _ (same_non_zero _ _ R)) as A. destruct (average (non_zero r)) as [k|], (average (non_zero r')) as [k'|]; try tauto.
  - pose proof (same_orthotropy st i sw o _ _ _ _ _ _ _ _ C D A R) as O. destruct (orthotropy_sensitivities st i sw o ci co k r), (orthotropy_sensitivities st i sw o ci' co' k' r'); try discriminate.
    cbn [bind rel_res] in *. injection W as <-. injection W' as <-. cbn [fst snd]. split; [apply same_normalised; exact O|exact P2].
  - injection W as <-. injection W' as <-. cbn. auto.
Qed.
Lemma same_l_normalised l m : same_numbers l m -> same_numbers (l_normalised l) (l_normalised m).
Proof.
  intros L. unfold l_normalised.
  assert (B : forall a b, same_numbers a b -> forallb (fun x => Qle_bool (Qabs x) (1 # 100000000)) a = forallb (fun x => Qle_bool (Qabs x) (1 # 100000000)) b).
  { induction 1 as [|x y t u E _ IH]; [reflexivity|]. cbn [forallb]. rewrite IH. f_equal. apply eq_true_iff_eq. rewrite !Qle_bool_iff, E. reflexivity. }
  rewrite (B _ _ L). destruct (forallb _ m); [exact L|apply same_divided; exact L].
Qed.
Lemma twelve_numbers (l : list Q) : length l = 12%nat -> exists a b c d e f g h i j k m, l = [a; b; c; d; e; f; g; h; i; j; k; m].
Proof. intros L. do 12 (destruct l as [|? l]; [discriminate L|]). destruct l; [|discriminate L]. do 12 eexists. reflexivity. Qed.

(** the parameters of LAYLA: the two sheets tell all of them, and the weightings of the
    lamination parameters that are made of them *)
Theorem C95_layla_parameters : forall a a' c c' b b' p p',
  mk_layla_cons a = Ok c -> mk_layla_cons a' = Ok c' -> mk_layla_params c b = Ok p -> mk_layla_params c' b' = Ok p' ->
  same_sheet (save_layla_constraints c None) (save_layla_constraints c' None) ->
  same_sheet (save_layla_parameters p) (save_layla_parameters p') -> same_parameters p p'.
Proof.
  intros a a' c c' b b' p p' E E' P P' HC H.
  destruct (C95_layla_constraints _ _ _ _ E E' HC) as [R _]. clear HC.
  apply C88_parameters in P, P'.
  destruct (s_sens _ _ _ P) as (L1 & _ & W1), (s_tbo _ _ _ P) as (L2 & _ & W2), (s_sens _ _ _ P') as (L1' & _ & W1'), (s_tbo _ _ _ P') as (L2' & _ & W2').
  rewrite <- W1 in L1. rewrite <- W2 in L2. rewrite <- W1' in L1'. rewrite <- W2' in L2'.
  destruct (twelve_numbers _ L1) as (x1 & x2 & x3 & x4 & x5 & x6 & x7 & x8 & x9 & x10 & x11 & x12 & Ex).
  destruct (twelve_numbers _ L2) as (y1 & y2 & y3 & y4 & y5 & y6 & y7 & y8 & y9 & y10 & y11 & y12 & Ey).
  destruct (twelve_numbers _ L1') as (u1 & u2 & u3 & u4 & u5 & u6 & u7 & u8 & u9 & u10 & u11 & u12 & Eu).
  destruct (twelve_numbers _ L2') as (v1 & v2 & v3 & v4 & v5 & v6 & v7 & v8 & v9 & v10 & v11 & v12 & Ev).
  unfold save_layla_parameters in H. rewrite Ex, Ey, Eu, Ev in H.
  at_label H "maximum number of iterations" X1.
  at_label H "global_node_limit" X2.
  at_label H "global_node_limit_p" X3.
  at_label H "local_node_limit" X4.
  at_label H "local_node_limit_final" X5.
  at_label H "repair_membrane_switch" X6.
  at_label H "repair_flexural_switch" X7.
  at_label H "p_A" X8.
  at_label H "n_D1" X9.
  at_label H "n_D2" X10.
  at_label H "n_D3" X11.
  at_label H "penalty for the 10% rule (ply counts)" X12.
  at_label H "penalty for the 10% rule (lampam)" X13.
  at_label H "penalty for balance" X14.
  at_label H "penalty for in-plane orthotropy" X15.
  at_label H "coeff for in-plane orthotropy/balance penalty" X16.
  at_label H "coeff for out-of plane orthotropy penalty" X17.
  at_label H "coeff for the 10% rule penalty" X18.
  at_label H "minimum group size" X19.
  at_label H "maximum group size" X20.
  at_label H "first_level_sensitivities[1]" X21.
  at_label H "first_level_sensitivities[2]" X22.
  at_label H "first_level_sensitivities[3]" X23.
  at_label H "first_level_sensitivities[4]" X24.
  at_label H "first_level_sensitivities[5]" X25.
  at_label H "first_level_sensitivities[6]" X26.
  at_label H "first_level_sensitivities[7]" X27.
  at_label H "first_level_sensitivities[8]" X28.
  at_label H "first_level_sensitivities[9]" X29.
  at_label H "first_level_sensitivities[10]" X30.
  at_label H "first_level_sensitivities[11]" X31.
  at_label H "first_level_sensitivities[12]" X32.
  at_label H "lampam_to_be_optimised[1]" X33.
  at_label H "lampam_to_be_optimised[2]" X34.
  at_label H "lampam_to_be_optimised[3]" X35.
  at_label H "lampam_to_be_optimised[4]" X36.
  at_label H "lampam_to_be_optimised[5]" X37.
  at_label H "lampam_to_be_optimised[6]" X38.
  at_label H "lampam_to_be_optimised[7]" X39.
  at_label H "lampam_to_be_optimised[8]" X40.
  at_label H "lampam_to_be_optimised[9]" X41.
  at_label H "lampam_to_be_optimised[10]" X42.
  at_label H "lampam_to_be_optimised[11]" X43.
  at_label H "lampam_to_be_optimised[12]" X44.
  apply bool_cell in X6, X7, X12, X13, X14, X15. apply join_inj in X20. unfold same_cell, int_cell in *. apply inject_inj in X1, X2, X3, X4, X5, X9, X10, X11, X19.
  assert (S : same_numbers (w_sens p) (w_sens p')) by (rewrite Ex, Eu; repeat (apply Forall2_cons; [assumption|]); apply Forall2_nil).
  assert (T : same_numbers (w_tbo p) (w_tbo p')) by (rewrite Ey, Ev; repeat (apply Forall2_cons; [assumption|]); apply Forall2_nil).
  destruct (s_weights _ _ _ P) as (st & St & Wt), (s_weights _ _ _ P') as (st' & St' & Wt').
  destruct R as (R1 & R2 & R3 & R4 & R). destruct R as (_ & _ & _ & _ & _ & _ & _ & _ & _ & _ & _ & R5 & _).
  rewrite <- W1, <- W2 in Wt. rewrite <- W1', <- W2', R1, R3, R4, <- X15 in Wt'.
  assert (st' = st) as -> by (apply eq_true_iff_eq; rewrite St, St', R5; reflexivity).
  destruct (same_weights _ _ _ _ _ _ _ _ _ _ _ _ _ _ _ X16 X17 S T Wt Wt') as [F G]. cbn [fst snd] in F, G.
  constructor; try assumption.
  - rewrite (s_finalA _ _ _ P), (s_finalA _ _ _ P'). destruct (w_final p), (w_final p'); cbn [option_map same_or_nan] in *; try tauto. apply same_l_normalised, same_firstn. exact F.
  - rewrite (s_finalD _ _ _ P), (s_finalD _ _ _ P'). destruct (w_final p), (w_final p'); cbn [option_map same_or_nan] in *; try tauto. apply same_l_normalised, same_firstn, same_skipn. exact F.
Qed.
Print Assumptions C95_layla_parameters.

(** the constraints of BELLA: likewise, but for the choice between the two ways to count the +-45 plies
    (C92) *)
Theorem C95_bella_constraints : forall a a' c c', mk_cons a = Ok c -> mk_cons a' = Ok c' ->
  same_sheet (SavedSetup.save_constraints c) (SavedSetup.save_constraints c') ->
  same_rules c c' /\ same_minima c c' /\ (percent_Abdalla c == percent_Abdalla c')%Q /\ (percent_tot c == percent_tot c')%Q.
Proof.
  intros a a' c c' E E' H.
  at_label H "symmetry" X1. at_label H "balance" X2. at_label H "out-of-plane orthotropy" X4.
  at_label H "damage tolerance" X5. at_label H "dam_tol_rule" X6. at_label H "10% rule" X7.
  at_label H "percent_0" X8. at_label H "percent_45" X9. at_label H "percent_90" X10. at_label H "percent_-45" X11. at_label H "percent_+-45" X12.
  at_label H "diso" X13. at_label H "delta_angle" X14. at_label H "contig" X15. at_label H "n_contig" X16. at_label H "fibre orientations" X17.
  at_label H "covering" X18. at_label H "n_covering" X19. at_label H "10% rule applied on LPs" X20. at_label H "percentage limit when rule applied on LPs" X21.
  at_label H "ply drop spacing rule" X22. at_label H "minimum number of continuous plies between ply drops" X23.
  apply bool_cell in X1, X2, X4, X5, X7, X13, X15, X18, X20, X22. apply join_inj in X17. unfold same_cell, int_cell in *.
  apply nat_inj in X6, X19. apply inject_inj in X14, X23.
  pose proof (mk_cons_consistent _ _ E) as K. pose proof (mk_cons_consistent _ _ E') as K'.
  destruct (built_facts _ _ E) as (F & _ & T & _), (built_facts _ _ E') as (F' & _ & T' & _).
  assert (A : angles_bal c' = angles_bal c) by (rewrite <- X7, <- X17, F in F'; congruence).
  assert (AB : rule_10_percent c = true -> rule_10_Abdalla c' = rule_10_Abdalla c).
  { intros R. rewrite <- X7, R in X20. cbn [andb] in X20. congruence. }
  assert (I' : ipo c' = ipo c) by (rewrite (k_ipo _ K), (k_ipo _ K'); congruence).
  assert (NC : n_contig c' = n_contig c /\ n_contig_c c' = n_contig_c c).
  { destruct (contig c) eqn:G.
    - destruct (k_contig_on _ K G) as [_ G1], (k_contig_on _ K' (eq_sym X15)) as [_ G2]. rewrite G1, G2 in *. apply nat_inj in X16. rewrite X16. auto.
    - destruct (k_contig_off _ K G) as [G1 G2], (k_contig_off _ K' (eq_sym X15)) as [G3 G4]. rewrite G1, G2, G3, G4. auto. }
  assert (Z : forall d, consistent d -> rule_10_percent d = false -> (percent_0 d == 0 /\ percent_45 d == 0 /\ percent_90 d == 0 /\ percent_135 d == 0 /\ percent_45_135 d == 0 /\ percent_tot d == 0)%Q)
    by (intros d Kd R; apply (k_pct_off _ Kd); auto).
  assert (M : same_minima c c').
  { pose proof (Z _ K) as Z1. pose proof (Z _ K') as Z2.
    repeat split; (eapply scaled_inj; [exact X7| | |eassumption]); intros R; [apply Z1 in R|apply Z2 in R|apply Z1 in R|apply Z2 in R|apply Z1 in R|apply Z2 in R|apply Z1 in R|apply Z2 in R|apply Z1 in R|apply Z2 in R]; intuition. }
  assert (P : (percent_Abdalla c == percent_Abdalla c')%Q).
  { eapply scaled_inj; [exact X7| | |exact X21]; intros R; [apply (k_abd_off _ K)|apply (k_abd_off _ K')]; auto. }
  destruct NC as [N1 N2]. split; [|split; [exact M|split; [exact P|]]].
  - unfold same_rules. rewrite A, I', N1, N2, X1, X2, X4, X5, X6, X7, X13, X14, X15, X17, X18, X19, X22, X23. repeat split; auto.
    intros R. apply AB. congruence.
  - assert (X24 : (rule_10_percent c' && negb (rule_10_Abdalla c') = rule_10_percent c && negb (rule_10_Abdalla c))%bool) by (rewrite <- X7; destruct (rule_10_percent c); [rewrite AB by reflexivity|]; reflexivity).
    rewrite T, T', X24. destruct (rule_10_percent c && negb (rule_10_Abdalla c))%bool; [|reflexivity].
    destruct M as (M1 & M2 & M3 & M4 & M5). unfold Qmaxb.
    assert (B : Constraints.Qltb (percent_0 c + percent_45 c + percent_90 c + percent_135 c) (percent_0 c + percent_45_135 c + percent_90 c) =
                Constraints.Qltb (percent_0 c' + percent_45 c' + percent_90 c' + percent_135 c') (percent_0 c' + percent_45_135 c' + percent_90 c'))
      by (apply eq_true_iff_eq; rewrite !Qltb_lt, M1, M2, M3, M4, M5; reflexivity).
    rewrite B. destruct (Constraints.Qltb (percent_0 c' + percent_45 c' + percent_90 c' + percent_135 c') (percent_0 c' + percent_45_135 c' + percent_90 c')).
    + idtac. lra.
    + lra.
Qed.
Print Assumptions C95_bella_constraints.

(** the rules that the search is asked to break are listed on the sheet, with their values, and no others *)
Theorem C95_broken_rules : forall a n c, mk_layla_cons a = Ok n ->
  let t := save_layla_constraints c (Some n) in
  (SavedSetup.lookup t "No diso !" = (if diso n then Ok (CBool true) else Err KeyError)) /\
  (SavedSetup.lookup t "delta_angle (no)" = (if diso n then Ok (CNum (inject_Z (delta_angle n))) else Err KeyError)) /\
  (SavedSetup.lookup t "No contig !" = (if contig n then Ok (CBool true) else Err KeyError)) /\
  (SavedSetup.lookup t "n_contig (no)" = (if contig n then Ok (CNum (inject_Z (Z.of_nat (n_contig n)))) else Err KeyError)) /\
  (SavedSetup.lookup t "No balance !" = (if bal n then Ok (CBool true) else Err KeyError)) /\
  (SavedSetup.lookup t "No in-plane orthotropy !" = (if ipo n then Ok (CBool true) else Err KeyError)) /\
  (SavedSetup.lookup t "No 10% rule !" = (if rule_10_percent n then Ok (CBool true) else Err KeyError)) /\
  (forall label, match SavedSetup.lookup (save_layla_constraints c None) label with Ok x => SavedSetup.lookup t label = Ok x | Err _ => True end).
Proof.
  intros a n c E t.
  destruct (layla_built _ _ E) as (_ & _ & _ & _ & _ & _ & N1 & N2). pose proof (C88_constraints_hold _ _ E) as K.
  assert (B : bal n = true -> ipo n = true).
  { intros Y. apply (h_ipo _ _ K). right. rewrite (h_bal _ _ K), Y. reflexivity. }
  assert (L : forall base more label, match SavedSetup.lookup base label with Ok x => SavedSetup.lookup (base ++ more) label = Ok x | Err _ => True end).
  { induction base as [|[m x] r IH]; intros more label; cbn [SavedSetup.lookup app]; [exact Logic.I|]. destruct (String.eqb m label); [reflexivity|apply IH]. }
  assert (V : n_contig_c n = if contig n then Some (n_contig n) else None) by (rewrite N2; destruct (contig n); congruence).
  assert (Q8 : forall label, match SavedSetup.lookup (save_layla_constraints c None) label with Ok x => SavedSetup.lookup t label = Ok x | Err _ => True end).
  { intros label. subst t. unfold save_layla_constraints. rewrite app_nil_r. apply L. }
  split; [|split; [|split; [|split; [|split; [|split; [|split; [|exact Q8]]]]]]]; subst t; unfold save_layla_constraints, save_broken_rules; rewrite V; unfold num_of_nat, int_cell;
  destruct (diso n), (contig n), (bal n), (ipo n), (rule_10_percent n); try (specialize (B eq_refl); discriminate B); reflexivity.
Qed.
Print Assumptions C95_broken_rules.

(** the coefficients of the objective function are all on its sheet; n_modes is not *)
Theorem C95_objective : forall o o', same_sheet (save_objective o) (save_objective o') <->
  (coeff_diso o == coeff_diso o' /\ coeff_contig o == coeff_contig o' /\ SavedSetup.coeff_10 o == SavedSetup.coeff_10 o' /\
   SavedSetup.coeff_bal_ipo o == SavedSetup.coeff_bal_ipo o' /\ SavedSetup.coeff_oopo o == SavedSetup.coeff_oopo o' /\ coeff_spacing o == coeff_spacing o')%Q.
Proof.
  intros o o'. split.
  - intros H. pose proof (H "coeff_diso") as X1. pose proof (H "coeff_contig") as X2. pose proof (H "coeff_10") as X3. pose proof (H "coeff_bal_ipo") as X4.
    pose proof (H "coeff_oopo") as X5. pose proof (H "coeff_spacing") as X6.
    repeat split; assumption.
  - intros (A & B & C & D & E & F) label. unfold save_objective. cbn [SavedSetup.lookup].
    repeat match goal with |- context [String.eqb ?a label] => destruct (String.eqb a label); [cbn [same_cell]; first [assumption | reflexivity]|] end.
    exact Logic.I.
Qed.
Print Assumptions C95_objective.

(** two set-ups of LAYLA: the first two differ in values that no rule uses and have the same
    sheets; the third is told from the first by its sheet *)
Definition ex_layla (s : bool) (n : nat) : lcargs :=
  {| y_sym := VBool s; y_bal := VBool false; y_ipo := VBool true; y_oopo := VBool false; y_dam_tol := VBool false; y_rule_10 := VBool true;
     y_0 := VInt 10; y_45 := VInt 5; y_90 := VInt 10; y_135 := VInt 0; y_45_135 := VInt 8;
     y_diso := VBool true; y_contig := VBool false; y_n_contig := n; y_delta := 45; y_dam_rule := 2; y_angles := [0; 45; 90; -45] |}.
Example C95_example : exists c c' d p p',
  mk_layla_cons (ex_layla true 5) = Ok c /\ mk_layla_cons (ex_layla true 3) = Ok c' /\ mk_layla_cons (ex_layla false 5) = Ok d /\
  mk_layla_params c default_lparams = Ok p /\ mk_layla_params c' default_lparams = Ok p' /\
  same_sheet (save_layla_constraints c None) (save_layla_constraints c' None) /\
  same_sheet (save_layla_parameters p) (save_layla_parameters p') /\
  ~ same_sheet (save_layla_constraints c None) (save_layla_constraints d None) /\
  SavedSetup.lookup (save_layla_constraints c (Some d)) "No diso !" = Ok (CBool true) /\
  SavedSetup.lookup (save_layla_constraints c (Some d)) "No contig !" = Err KeyError.
Proof.
  assert (R : forall t, same_sheet t t).
  { intros t label. destruct (SavedSetup.lookup t label) as [[]|]; cbn; auto; reflexivity. }
  destruct (mk_layla_cons (ex_layla true 5)) as [c|] eqn:E; [|vm_compute in E; discriminate].
  destruct (mk_layla_cons (ex_layla false 5)) as [d|] eqn:Ed; [|vm_compute in Ed; discriminate].
  assert (E' : mk_layla_cons (ex_layla true 3) = Ok c) by (rewrite <- E; vm_compute; reflexivity).
  destruct (mk_layla_params c default_lparams) as [p|] eqn:P; [|vm_compute in E; injection E as <-; vm_compute in P; discriminate].
  exists c, c, d, p, p. split; [reflexivity|]. split; [exact E'|]. split; [reflexivity|]. split; [exact P|]. split; [exact P|]. split; [apply R|]. split; [apply R|].
  vm_compute in E, Ed. injection E as <-. injection Ed as <-.
  split; [|split; reflexivity]. intros H. specialize (H "symmetry"). cbn in H. discriminate H.
Qed.
