(* Properties_objectives.v - property theorem C39: the objective of a structure. *)
From Coq Require Import Lqa Setoid.
From Verif Require Import Base Objectives ObjectivesProofs.
Local Open Scope Z_scope.

(* ------------------------------------------------------------------ *)
(** ** Specification, independent of the way the code multiplies arrays *)

(** panel i's value of a penalty given as a number, or as an array with one entry per panel *)
Definition pen (p : arg) (i : nat) : Q :=
  match p with ANum q => q | AArr l => nth i l 0%Q | _ => 0%Q end.

(** a penalty argument documented for n panels *)
Definition proper (n : nat) (p : arg) : Prop :=
  match p with ANum _ => True | AArr l => length l = n | _ => False end.
Definition all_args (P : arg -> Prop) (p : penalties) : Prop :=
  P (p_diso p) /\ P (p_contig p) /\ P (p_10 p) /\ P (p_bal_ipo p) /\ P (p_oopo p) /\ P (p_weight p).

(** Σ_{i<n} f i *)
Fixpoint sum_to (n : nat) (f : nat -> Q) : Q :=
  match n with O => 0%Q | S k => (sum_to k f + f k)%Q end.

(** weighting * objective * product of (1 + coefficient * penalty) *)
Definition panel_value (objective weightings : list Q) (p : penalties) (c : coefficients) (i : nat) : Q :=
  (nth i weightings 0 * nth i objective 0
   * (1 + c_diso c * pen (p_diso p) i) * (1 + c_contig c * pen (p_contig p) i) * (1 + c_10 c * pen (p_10 p) i)
   * (1 + c_bal_ipo c * pen (p_bal_ipo p) i) * (1 + c_oopo c * pen (p_oopo p) i) * (1 + c_weight c * pen (p_weight p) i))%Q.

Lemma total_sum_to n f : (total n f == sum_to n f)%Q.
Proof. induction n as [|n IH]; [reflexivity|]. rewrite total_S, IH. reflexivity. Qed.
Lemma pen_at n p i : proper n p -> (i < n)%nat -> at_panel p i = pen p i.
Proof.
  destruct p as [q|l|l|]; cbn; intros H Hi; auto; try contradiction.
  destruct l as [|x [|y l]]; auto. cbn in H. assert (i = 0)%nat by lia. subst; reflexivity.
Qed.
Lemma proper_fits n p : proper n p -> fits n p.
Proof. destruct p; cbn; auto. Qed.

(** the value of calc_obj_multi_panel *)
Theorem C39_value : forall objective weightings p c n,
  length objective = n -> length weightings = n -> all_args (proper n) p ->
  exists r, calc_obj_multi_panel objective weightings p c = Ok r /\ (r == sum_to n (panel_value objective weightings p c))%Q.
Proof.
  intros objective weightings p c n L1 L2 [A1 [A2 [A3 [A4 [A5 A6]]]]].
  destruct (multi_panel_closed objective weightings p c n L1 L2) as [r [E R]].
  { repeat split; apply proper_fits; auto. }
  exists r; split; auto. rewrite R, <- total_sum_to. apply total_ext. intros i Hi.
  unfold penalty_factor, panel_value. rewrite !(pen_at n) by auto. ring.
Qed.
Print Assumptions C39_value.

(** non-negative coefficients (ObjFunction rejects others) and penalties *)
Definition coefficients_nonneg (c : coefficients) : Prop :=
  (0 <= c_diso c /\ 0 <= c_contig c /\ 0 <= c_10 c /\ 0 <= c_bal_ipo c /\ 0 <= c_oopo c /\ 0 <= c_weight c)%Q.
Definition nonneg_pen (n : nat) (p : arg) : Prop := forall i, (i < n)%nat -> (0 <= pen p i)%Q.

Lemma fac_pos c q : (0 <= c -> 0 <= q -> 0 <= 1 + c * q)%Q.
Proof. intros. assert (0 <= c * q)%Q by (apply Qmult_le_0_compat; auto). lra. Qed.
Lemma sum_to_le n f g : (forall i, (i < n)%nat -> f i <= g i)%Q -> (sum_to n f <= sum_to n g)%Q.
Proof. intros H. rewrite <- !total_sum_to. apply total_le; auto. Qed.
Lemma sum_to_nonneg n f : (forall i, (i < n)%nat -> 0 <= f i)%Q -> (0 <= sum_to n f)%Q.
Proof. intros H. rewrite <- total_sum_to. apply total_nonneg; auto. Qed.
Lemma sum_to_ext n f g : (forall i, (i < n)%nat -> f i == g i)%Q -> (sum_to n f == sum_to n g)%Q.
Proof. intros H. rewrite <- !total_sum_to. apply total_ext; auto. Qed.

Theorem C39_nonnegative : forall objective weightings p c n r,
  length objective = n -> length weightings = n -> all_args (proper n) p ->
  (forall i, (i < n)%nat -> 0 <= nth i objective 0 /\ 0 <= nth i weightings 0)%Q ->
  coefficients_nonneg c -> all_args (nonneg_pen n) p ->
  calc_obj_multi_panel objective weightings p c = Ok r -> (0 <= r)%Q.
Proof.
  intros objective weightings p c n r L1 L2 A H [C1 [C2 [C3 [C4 [C5 C6]]]]] [P1 [P2 [P3 [P4 [P5 P6]]]]] E.
  destruct (C39_value objective weightings p c n L1 L2 A) as [r' [E' R]]. rewrite E' in E. injection E as <-. rewrite R.
  apply sum_to_nonneg. intros i Hi. destruct (H i Hi). unfold panel_value.
  repeat (apply Qmult_le_0_compat; [|auto using fac_pos]); auto.
Qed.
Print Assumptions C39_nonnegative.

Theorem C39_no_penalty : forall objective weightings p c n r,
  length objective = n -> length weightings = n -> all_args (proper n) p ->
  all_args (fun q => forall i, (i < n)%nat -> pen q i == 0)%Q p ->
  calc_obj_multi_panel objective weightings p c = Ok r ->
  (r == sum_to n (fun i => nth i weightings 0 * nth i objective 0))%Q.
Proof.
  intros objective weightings p c n r L1 L2 A [P1 [P2 [P3 [P4 [P5 P6]]]]] E.
  destruct (C39_value objective weightings p c n L1 L2 A) as [r' [E' R]]. rewrite E' in E. injection E as <-. rewrite R.
  apply sum_to_ext. intros i Hi. unfold panel_value. rewrite P1, P2, P3, P4, P5, P6 by auto. ring.
Qed.
Print Assumptions C39_no_penalty.

(** all panels on target: zero, whatever the penalties *)
Theorem C39_zero_on_target : forall objective weightings p c n r,
  length objective = n -> length weightings = n -> all_args (proper n) p ->
  (forall i, (i < n)%nat -> nth i objective 0 == 0)%Q ->
  calc_obj_multi_panel objective weightings p c = Ok r -> (r == 0)%Q.
Proof.
  intros objective weightings p c n r L1 L2 A Z E.
  destruct (C39_value objective weightings p c n L1 L2 A) as [r' [E' R]]. rewrite E' in E. injection E as <-. rewrite R.
  transitivity (sum_to n (fun _ => 0%Q)).
  - apply sum_to_ext. intros i Hi. unfold panel_value. rewrite Z by auto. ring.
  - rewrite <- total_sum_to. apply total_zero.
Qed.
Print Assumptions C39_zero_on_target.

(** larger penalties or larger coefficients never make the objective smaller *)
Definition pen_le (n : nat) (p q : arg) : Prop := forall i, (i < n)%nat -> (pen p i <= pen q i)%Q.
Theorem C39_monotone : forall objective weightings p q c d n r s,
  length objective = n -> length weightings = n -> all_args (proper n) p -> all_args (proper n) q ->
  (forall i, (i < n)%nat -> 0 <= nth i objective 0 /\ 0 <= nth i weightings 0)%Q ->
  coefficients_nonneg c -> all_args (nonneg_pen n) p ->
  (c_diso c <= c_diso d /\ c_contig c <= c_contig d /\ c_10 c <= c_10 d /\ c_bal_ipo c <= c_bal_ipo d /\ c_oopo c <= c_oopo d /\ c_weight c <= c_weight d)%Q ->
  pen_le n (p_diso p) (p_diso q) /\ pen_le n (p_contig p) (p_contig q) /\ pen_le n (p_10 p) (p_10 q) /\
  pen_le n (p_bal_ipo p) (p_bal_ipo q) /\ pen_le n (p_oopo p) (p_oopo q) /\ pen_le n (p_weight p) (p_weight q) ->
  calc_obj_multi_panel objective weightings p c = Ok r -> calc_obj_multi_panel objective weightings q d = Ok s -> (r <= s)%Q.
Proof.
  intros objective weightings p q c d n r s L1 L2 A B H [C1 [C2 [C3 [C4 [C5 C6]]]]] [P1 [P2 [P3 [P4 [P5 P6]]]]]
    [D1 [D2 [D3 [D4 [D5 D6]]]]] [Q1 [Q2 [Q3 [Q4 [Q5 Q6]]]]] E F.
  destruct (C39_value objective weightings p c n L1 L2 A) as [r' [E' R]]. rewrite E' in E. injection E as <-.
  destruct (C39_value objective weightings q d n L1 L2 B) as [s' [F' S]]. rewrite F' in F. injection F as <-.
  rewrite R, S. apply sum_to_le. intros i Hi. destruct (H i Hi) as [H1 H2]. unfold panel_value.
  assert (FM : forall x y a b, (0 <= x -> x <= y -> 0 <= a -> a <= b -> 0 <= 1 + x * a /\ 1 + x * a <= 1 + y * b)%Q).
  { intros x y a b X1 X2 X3 X4. assert (0 <= x * a)%Q by (apply Qmult_le_0_compat; auto). split; [lra|].
    assert (x * a <= y * b)%Q by nra. lra. }
  assert (MM : forall x y a b, (0 <= x -> x <= y -> 0 <= a -> a <= b -> 0 <= x * a /\ x * a <= y * b)%Q).
  { intros x y a b X1 X2 X3 X4. split; [apply Qmult_le_0_compat; auto|nra]. }
  destruct (FM _ _ _ _ C1 D1 (P1 i Hi) (Q1 i Hi)) as [a1 b1].
  destruct (FM _ _ _ _ C2 D2 (P2 i Hi) (Q2 i Hi)) as [a2 b2].
  destruct (FM _ _ _ _ C3 D3 (P3 i Hi) (Q3 i Hi)) as [a3 b3].
  destruct (FM _ _ _ _ C4 D4 (P4 i Hi) (Q4 i Hi)) as [a4 b4].
  destruct (FM _ _ _ _ C5 D5 (P5 i Hi) (Q5 i Hi)) as [a5 b5].
  destruct (FM _ _ _ _ C6 D6 (P6 i Hi) (Q6 i Hi)) as [a6 b6].
  destruct (MM _ _ _ _ H2 (Qle_refl _) H1 (Qle_refl _)) as [u0 v0].
  destruct (MM _ _ _ _ u0 v0 a1 b1) as [u1 v1].
  destruct (MM _ _ _ _ u1 v1 a2 b2) as [u2 v2].
  destruct (MM _ _ _ _ u2 v2 a3 b3) as [u3 v3].
  destruct (MM _ _ _ _ u3 v3 a4 b4) as [u4 v4].
  destruct (MM _ _ _ _ u4 v4 a5 b5) as [u5 v5].
  destruct (MM _ _ _ _ u5 v5 a6 b6) as [u6 v6].
  exact v6.
Qed.
Print Assumptions C39_monotone.

(** one panel: weighted squares *)
Theorem C39_one_panel : forall lampam target weightings r,
  (forall x, In x weightings -> 0 <= x)%Q ->
  calc_obj_one_panel lampam target weightings = Ok r ->
  length lampam = length target /\ length weightings = length target /\ (0 <= r)%Q /\
  (r == sum_to (length target) (fun i => nth i weightings 0 * ((nth i lampam 0 - nth i target 0) * (nth i lampam 0 - nth i target 0))))%Q /\
  ((forall i, (i < length target)%nat -> nth i weightings 0 == 0 \/ nth i lampam 0 == nth i target 0)%Q -> (r == 0)%Q).
Proof.
  intros lampam target weightings r W E. unfold calc_obj_one_panel in E.
  destruct (Nat.eqb_spec (length lampam) (length target)) as [L1|]; [|discriminate E].
  destruct (Nat.eqb_spec (length weightings) (length lampam)) as [L2|]; [|discriminate E]. cbn [andb] in E. injection E as <-.
  assert (V : (sumQ (zip_with Qmult weightings (map (fun x => x * x) (zip_with Qminus lampam target))) ==
    sum_to (length target) (fun i => nth i weightings 0 * ((nth i lampam 0 - nth i target 0) * (nth i lampam 0 - nth i target 0))))%Q).
  { rewrite <- total_sum_to. apply total_of.
    - rewrite zip_length; [lia|]. rewrite map_length, zip_length; lia.
    - intros i Hi. rewrite zip_nth by (rewrite ?map_length, ?zip_length; lia).
      rewrite map_nth_lt by (rewrite zip_length; lia). rewrite zip_nth by lia. reflexivity. }
  split; [auto|]. split; [lia|]. split; [apply zip_sq_nonneg; auto|]. split; [exact V|].
  intros Z. rewrite V. transitivity (sum_to (length target) (fun _ => 0%Q)).
  - apply sum_to_ext. intros i Hi. destruct (Z i Hi) as [X|X]; rewrite X; ring.
  - rewrite <- total_sum_to. apply total_zero.
Qed.
Print Assumptions C39_one_panel.

(** the variant for partially known designs: with penalties given per panel (or not given at
    all), it is the sum over the known panels; when all panels are known it agrees with the
    plain function, a penalty not given counting as zero *)
Definition given_or_not (n : nat) (p : arg) : Prop := p = ANone \/ exists l, p = AArr l /\ length l = n.
Definition default_zero (p : arg) : arg := match p with ANone => ANum 0 | _ => p end.
Definition with_defaults (p : penalties) : penalties :=
  {| p_diso := default_zero (p_diso p); p_contig := default_zero (p_contig p); p_10 := default_zero (p_10 p);
     p_bal_ipo := default_zero (p_bal_ipo p); p_oopo := default_zero (p_oopo p); p_weight := default_zero (p_weight p) |}.

Lemma default_proper n p : given_or_not n p -> proper n (default_zero p).
Proof. intros [->|[l [-> H]]]; cbn; auto. Qed.
Lemma default_pen n p i : given_or_not n p -> (i < n)%nat -> at_panel p i = pen (default_zero p) i.
Proof.
  intros G Hi. pose proof (default_proper n p G) as P. rewrite <- (pen_at n) by auto.
  destruct G as [->|[l [-> H]]]; reflexivity.
Qed.

Theorem C39_partially_known : forall (objective : list (option Q)) weightings p c n,
  length objective = n -> length weightings = n -> all_args (given_or_not n) p ->
  exists r, calc_obj_multi_panel_nones objective weightings p c = Ok r /\
    (r == sum_to n (fun i => match nth i objective None with
                             | None => 0
                             | Some _ => panel_value (map (fun o => match o with Some q => q | None => 0 end) objective) weightings (with_defaults p) c i
                             end))%Q.
Proof.
  intros objective weightings p c n L1 L2 [A1 [A2 [A3 [A4 [A5 A6]]]]].
  destruct (nones_closed objective weightings p c n L1 L2) as [r [E R]]; [repeat split; auto|].
  exists r; split; auto. rewrite R, <- total_sum_to. apply total_ext. intros i Hi.
  destruct (nth i objective None) as [o|] eqn:O; cbn [obj_or_zero]; [|ring].
  unfold panel_value, penalty_factor, with_defaults; cbn [p_diso p_contig p_10 p_bal_ipo p_oopo p_weight].
  rewrite !(default_pen n) by auto.
  assert (M : nth i (map (fun o : option Q => match o with Some q => q | None => 0%Q end) objective) 0%Q = o)
    by (transitivity ((fun o : option Q => match o with Some q => q | None => 0%Q end) (nth i objective None));
        [exact (map_nth (fun o : option Q => match o with Some q => q | None => 0%Q end) objective None i) | rewrite O; reflexivity]).
  rewrite M. ring.
Qed.
Print Assumptions C39_partially_known.

Theorem C39_variants_agree : forall objective weightings p c n,
  length objective = n -> length weightings = n -> all_args (given_or_not n) p ->
  exists r s, calc_obj_multi_panel_nones (map Some objective) weightings p c = Ok r /\
    calc_obj_multi_panel objective weightings (with_defaults p) c = Ok s /\ (r == s)%Q.
Proof.
  intros objective weightings p c n L1 L2 A.
  destruct (C39_partially_known (map Some objective) weightings p c n) as [r [E R]]; [rewrite map_length; auto|auto|auto|].
  destruct (C39_value objective weightings (with_defaults p) c n L1 L2) as [s [F S]].
  { destruct A as [A1 [A2 [A3 [A4 [A5 A6]]]]]. repeat split; apply default_proper; auto. }
  exists r, s. split; auto. split; auto. rewrite R, S. apply sum_to_ext. intros i Hi.
  rewrite map_map, map_id.
  rewrite (nth_indep _ None (Some 0%Q)) by (rewrite map_length; lia). rewrite (map_nth Some). reflexivity.
Qed.
Print Assumptions C39_variants_agree.

(** but with the documented default arguments (the number 0) the variant raises *)
Theorem C39_variant_defaults_refuted : ~ (forall objective weightings p c n,
  length objective = n -> length weightings = n -> all_args (proper n) p ->
  exists r s, calc_obj_multi_panel_nones (map Some objective) weightings p c = Ok r /\
    calc_obj_multi_panel objective weightings p c = Ok s /\ (r == s)%Q).
Proof.
  intros H. specialize (H [1%Q] [1%Q] (Build_penalties (ANum 0) (ANum 0) (ANum 0) (ANum 0) (ANum 0) (ANum 0)) (Build_coefficients 0 0 0 0 0 0) 1%nat eq_refl eq_refl).
  destruct H as [r [s [E _]]]; [repeat split; exact I|]. vm_compute in E. discriminate E.
Qed.
Print Assumptions C39_variant_defaults_refuted.

(** coefficients held by ObjFunction are non-negative, zero when the guideline is off *)
Theorem C39_coefficients : forall active given q, set_coeff active given = Ok q ->
  (0 <= q)%Q /\ (active = false -> q = 0%Q) /\ (active = true -> q = given).
Proof.
  intros active given q H. unfold set_coeff in H. destruct active.
  - destruct (Qle_bool 0 given) eqn:E; [|discriminate]. injection H as <-. apply Qle_bool_iff in E. repeat split; auto; discriminate.
  - injection H as <-. repeat split; auto; try discriminate; lra.
Qed.
Print Assumptions C39_coefficients.

Example C39_example :
  exists r s, calc_obj_multi_panel [1 # 2; 1 # 4]%Q [2; 1]%Q (Build_penalties (AArr [1; 0]%Q) (ANum 0) (ANum 0) (AArr [1 # 2; 0]%Q) (ANum 0) (ANum 0)) (Build_coefficients 1 1 1 1 1 1) = Ok r /\
   (r == 13 # 4)%Q /\
   calc_obj_multi_panel_nones [Some (1 # 2)%Q; None] [2; 1]%Q (Build_penalties (AArr [1; 0]%Q) ANone ANone ANone ANone ANone) (Build_coefficients 1 1 1 1 1 1) = Ok s /\ (s == 2)%Q.
Proof. eexists; eexists; split; [reflexivity|]; split; [reflexivity|]; split; reflexivity. Qed.
