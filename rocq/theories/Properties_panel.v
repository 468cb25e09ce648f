(* Properties_panel.v - C58 panel definition and lamination-parameter filters *)
From Verif Require Import Base Constraints Panel PanelProofs Objectives.
From Coq Require Import Lqa.
Local Open Scope Z_scope.

(* ------------------------------------------------------------------ *)
(** * Specification *)

(** the allowed fibre angles are exactly 0, 45, -45 and 90 *)
Definition four_angles (c : cons) : Prop := forall a, In a (set_of_angles c) <-> In a [0; 45; -45; 90].

(** lamination parameters (numbered 0..11: A, B and D, in each the components cos 2, cos 4, sin 2,
    sin 4) that carry no user weighting under the active guidelines *)
Definition off (c : cons) (i : nat) : Prop :=
  (sym c = true /\ (4 <= i < 8)%nat) \/
  (four_angles c /\ (i = 3 \/ i = 7 \/ i = 11)%nat) \/
  (bal c = true /\ (i = 2 \/ i = 3)%nat) \/
  (oopo c = true /\ (i = 10 \/ i = 11)%nat).

(** components that carry the penalty for out-of-plane orthotropy *)
Definition oopo_component (c : cons) (i : nat) : Prop :=
  oopo c = true /\ (i = 10 \/ (i = 11 /\ ~ four_angles c))%nat.

(** component i has a non-zero user weighting and is not switched off *)
Definition in_use (c : cons) (w : list Q) (i : nat) : Prop := (i < 12)%nat /\ ~ off c i /\ ~ (nth i w 0 == 0)%Q.

Lemma off_clearedb c i : off c i <-> clearedb c i = true.
Proof.
  unfold off, clearedb. unfold four_angles. rewrite <- (only_standard_true (set_of_angles c)).
  rewrite !orb_true_iff, !andb_true_iff, !orb_true_iff, Nat.leb_le, Nat.ltb_lt, !Nat.eqb_eq. tauto.
Qed.

Lemma four_dec c : four_angles c \/ ~ four_angles c.
Proof.
  destruct (only_standard (set_of_angles c)) eqn:E.
  - left. exact (proj1 (only_standard_true _) E).
  - right. intros F. pose proof (proj2 (only_standard_true _) F). congruence.
Qed.

Lemma standard_false c : ~ four_angles c -> only_standard (set_of_angles c) = false.
Proof. intros F. destruct (only_standard (set_of_angles c)) eqn:E; auto. destruct F. exact (proj1 (only_standard_true _) E). Qed.

(* ------------------------------------------------------------------ *)
(** * C58 *)

Section W.
Variables (c : cons) (coeff : Q) (w : list Q).
Hypothesis L : length w = 12%nat.
Hypothesis P : forall i, (0 <= nth i w 0)%Q.
Hypothesis C : (0 <= coeff)%Q.

Lemma non_zero_pos w' : (forall i, nth i w' 0%Q = if clearedb c i then 0%Q else nth i w 0%Q) ->
  forall x, In x (non_zero w') -> (0 < x)%Q.
Proof.
  intros N x H. apply in_non_zero in H as [I Z]. apply (In_nth _ _ 0%Q) in I as [i [_ E]]. subst x.
  rewrite N in *. destruct (clearedb c i); [destruct Z; reflexivity|]. specialize (P i).
  apply Qle_lteq in P as [Q1|Q1]; auto. destruct Z. symmetry. exact Q1.
Qed.

Lemma non_zero_some w' : length w' = 12%nat -> (forall i, nth i w' 0%Q = if clearedb c i then 0%Q else nth i w 0%Q) ->
  (non_zero w' <> [] <-> exists i, in_use c w i).
Proof.
  intros L' N. split.
  - intros H. destruct (non_zero w') as [|x n] eqn:E; [congruence|].
    assert (I : In x (non_zero w')) by (rewrite E; left; auto). apply in_non_zero in I as [I Z].
    apply (In_nth _ _ 0%Q) in I as [i [Hi Ei]]. exists i. split; [lia|]. subst x. rewrite N in Z.
    destruct (clearedb c i) eqn:K; [destruct Z; reflexivity|]. split; auto. rewrite off_clearedb. congruence.
  - intros [i [Hi [O Z]]] E. assert (I : In (nth i w' 0%Q) (non_zero w')).
    { apply in_non_zero. split; [apply nth_In; lia|]. rewrite N. rewrite off_clearedb in O.
      destruct (clearedb c i); [congruence|auto]. }
    rewrite E in I. destruct I.
Qed.
End W.


Lemma non_zero_seq (l : list Q) : forall s F, (forall i, (i < length l)%nat -> nth i l 0%Q = F (s + i)%nat) ->
  non_zero l = map F (filter (fun i => negb (Qeq_bool (F i) 0)) (seq s (length l))).
Proof.
  induction l as [|x l IH]; intros s F H; [reflexivity|].
  unfold non_zero in *. cbn [length seq filter]. pose proof (H 0%nat ltac:(cbn; lia)) as H0. cbn [nth] in H0. rewrite Nat.add_0_r in H0.
  rewrite (IH (S s) F).
  - rewrite H0. destruct (negb (Qeq_bool (F s) 0)); reflexivity.
  - intros i Hi. specialize (H (S i) ltac:(cbn; lia)). cbn [nth] in H. rewrite H. f_equal. lia.
Qed.

Lemma perm_sumQ (l m : list Q) : Permutation l m -> (sumQ l == sumQ m)%Q.
Proof.
  induction 1; try reflexivity.
  - change (x + sumQ l == x + sumQ l')%Q. rewrite IHPermutation. reflexivity.
  - change (y + (x + sumQ l) == x + (y + sumQ l))%Q. ring.
  - rewrite IHPermutation1. auto.
Qed.

(** the non-zero weightings left after the clearing are those of the components in use *)
Lemma used_perm c w w' used : length w' = 12%nat -> (forall i, nth i w' 0%Q = if clearedb c i then 0%Q else nth i w 0%Q) ->
  NoDup used -> (forall i, In i used <-> in_use c w i) ->
  Permutation (non_zero w') (map (fun i => nth i w 0%Q) used).
Proof.
  intros L' N ND U. rewrite (non_zero_seq w' 0 (fun i => nth i w' 0%Q)) by auto. rewrite L'.
  set (f := filter _ _).
  assert (E : forall i, In i f <-> In i used).
  { intros i. unfold f. rewrite filter_In, in_seq, U, N. unfold in_use. rewrite off_clearedb.
    destruct (clearedb c i) eqn:K.
    - split; [intros [_ H]; discriminate H|intros [_ [H _]]; congruence].
    - rewrite negb_true_iff. split.
      + intros [A B]. split; [lia|]. split; [congruence|]. intros Z. apply Qeq_eq_bool in Z. congruence.
      + intros [A [_ Z]]. split; [lia|]. destruct (Qeq_bool (nth i w 0%Q) 0%Q) eqn:Q; auto. apply Qeq_bool_eq in Q. contradiction. }
  transitivity (map (fun i => nth i w' 0%Q) used).
  - apply Permutation_map, NoDup_Permutation; auto. apply NoDup_filter, seq_NoDup.
  - erewrite map_ext_in; [apply Permutation_refl|]. intros i Hi. cbn beta. rewrite N. apply U in Hi as [_ [O _]].
    rewrite off_clearedb in O. destruct (clearedb c i); congruence.
Qed.

Theorem C58_weightings : forall c coeff w w',
  length w = 12%nat -> (forall i, 0 <= nth i w 0)%Q -> (0 <= coeff)%Q ->
  filter_weightings c coeff w = Ok (Some w') ->
  length w' = 12%nat /\ (forall i, 0 <= nth i w' 0)%Q /\ (sumQ w' == 1)%Q /\
  exists k, (0 < k)%Q /\
  (forall i, ~ off c i -> nth i w' 0 == k * nth i w 0)%Q /\
  (forall i, off c i -> ~ oopo_component c i -> nth i w' 0 == 0)%Q /\
  (forall i used, oopo_component c i -> NoDup used -> (forall j, In j used <-> in_use c w j) ->
     nth i w' 0 * inject_Z (zlen used) == k * coeff * sumQ (map (fun j => nth j w 0%Q) used))%Q.
Proof.
  intros c coeff w w' L P C H.
  destruct (filter_weightings_spec c coeff w L) as [w1 [_ [L1 [N1 [w2 [L2 [N2 E]]]]]]].
  rewrite E in H. clear E.
  destruct (oopo c && _)%bool eqn:B in H; [discriminate|].
  destruct (Qeq_bool (sumQ w2) 0) eqn:Z; [discriminate|]. injection H as <-.
  assert (M : forall m, average (non_zero w1) = Some m -> (0 <= m)%Q).
  { intros m A. apply (average_nonneg _ _ A). intros x Hx. apply Qlt_le_weak, (non_zero_pos c w P w1 N1 x Hx). }
  assert (NN : forall i, (0 <= nth i w2 0)%Q).
  { intros i. rewrite N2. unfold oopo_value. destruct (oopo c && (_ || _))%bool.
    - destruct (average (non_zero w1)) as [m|] eqn:A; [|apply Qle_refl]. apply Qmult_le_0_compat; auto.
    - rewrite N1. destruct (clearedb c i); [apply Qle_refl|auto]. }
  assert (S0 : (0 < sumQ w2)%Q).
  { assert (0 <= sumQ w2)%Q as A.
    { apply sumQ_nonneg. intros x Hx. apply (In_nth _ _ 0%Q) in Hx as [i [_ Ei]]. subst x. auto. }
    apply Qle_lteq in A as [A|A]; auto. symmetry in A. apply Qeq_eq_bool in A. congruence. }
  assert (D : forall i, (nth i (map (fun x => x / sumQ w2)%Q w2) 0 == nth i w2 0 / sumQ w2)%Q).
  { intros i. destruct (Nat.lt_ge_cases i (length w2)) as [Hi|Hi].
    - rewrite (nth_indep _ 0%Q (0 / sumQ w2)%Q) by (rewrite map_length; auto).
      rewrite (map_nth (fun x => x / sumQ w2)%Q). reflexivity.
    - rewrite !nth_overflow by (rewrite ?map_length; auto). unfold Qdiv. rewrite Qmult_0_l. reflexivity. }
  split; [rewrite map_length; auto|]. split.
  { intros i. rewrite D. apply Qle_shift_div_l; auto. rewrite Qmult_0_l. auto. }
  split.
  { rewrite sumQ_scale. field. lra. }
  exists (/ sumQ w2)%Q. split; [apply Qinv_lt_0_compat; auto|].
  assert (V : forall i, ~ oopo_component c i -> nth i w2 0%Q = nth i w1 0%Q).
  { intros i O. rewrite N2. unfold oopo_value. destruct (oopo c && (_ || _))%bool eqn:K; auto. destruct O.
    apply andb_true_iff in K as [K1 K2]. split; auto. apply orb_true_iff in K2 as [K2|K2].
    - left. apply Nat.eqb_eq; auto.
    - right. apply andb_true_iff in K2 as [K2 K3]. apply Nat.eqb_eq in K2. split; auto.
      intros F. pose proof (proj2 (only_standard_true _) F). rewrite H in K3. discriminate. }
  split; [|split].
  - intros i O. rewrite D, V, N1.
    + rewrite off_clearedb in O. destruct (clearedb c i); [congruence|]. unfold Qdiv. ring.
    + intros [K1 K2]. apply O. unfold off. right. right. right. split; auto. destruct K2 as [K2|[K2 _]]; auto.
  - intros i O K. rewrite D, V, N1 by auto. rewrite off_clearedb in O. rewrite O. unfold Qdiv. ring.
  - intros i used O ND U. rewrite D, N2. unfold oopo_value. destruct O as [O1 O2]. rewrite O1 in B |- *. cbn [andb] in B |- *.
    replace ((i =? 10)%nat || ((i =? 11)%nat && negb (only_standard (set_of_angles c))))%bool with true.
    2:{ symmetry. apply orb_true_iff. destruct O2 as [->|[-> O2]]; [left; reflexivity|right]. rewrite (standard_false c O2). reflexivity. }
    pose proof (used_perm c w w1 used L1 N1 ND U) as PM.
    unfold average. destruct (non_zero w1) as [|n0 n] eqn:EN; [discriminate|]. rewrite <- EN in *.
    replace (zlen used) with (zlen (non_zero w1)) by (unfold zlen; rewrite (Permutation_length PM), map_length; auto).
    rewrite (perm_sumQ _ _ PM). field. split; [lra|]. rewrite EN. unfold zlen. cbn [length]. unfold Qeq. cbn. lia.
Qed.
Print Assumptions C58_weightings.

(** the weightings are numbers exactly when a weighting is in use; otherwise they are all NaN *)
Theorem C58_defined : forall c coeff w,
  length w = 12%nat -> (forall i, 0 <= nth i w 0)%Q -> (0 <= coeff)%Q ->
  ((exists w', filter_weightings c coeff w = Ok (Some w')) <-> exists i, in_use c w i) /\
  (filter_weightings c coeff w = Ok None <-> forall i, ~ in_use c w i).
Proof.
  intros c coeff w L P C.
  destruct (filter_weightings_spec c coeff w L) as [w1 [_ [L1 [N1 [w2 [L2 [N2 E]]]]]]].
  pose proof (non_zero_some c w L w1 L1 N1) as NS.
  assert (K : match non_zero w1 with [] => true | _ => false end = true <-> non_zero w1 = []) by (destruct (non_zero w1); split; congruence).
  assert (R : (non_zero w1 <> [] -> exists w', filter_weightings c coeff w = Ok (Some w')) /\
              (non_zero w1 = [] -> filter_weightings c coeff w = Ok None)).
  { rewrite E. split; intros Z.
    - destruct (non_zero w1) as [|n0 n] eqn:EN; [congruence|]. rewrite andb_false_r.
      assert (I0 : In n0 (non_zero w1)) by (rewrite EN; left; auto).
      assert (A : (0 < n0)%Q) by (apply (non_zero_pos c w P w1 N1); auto).
      apply in_non_zero in I0 as [I0 _]. apply (In_nth _ _ 0%Q) in I0 as [i [Hi Ei]].
      assert (NN : forall x, In x w2 -> (0 <= x)%Q).
      { intros x Hx. apply (In_nth _ _ 0%Q) in Hx as [j [_ Ej]]. subst x. rewrite N2. unfold oopo_value. rewrite EN.
        destruct (oopo c && (_ || _))%bool.
        - destruct (average (n0 :: n)) as [m|] eqn:AV; [|apply Qle_refl]. apply Qmult_le_0_compat; auto.
          apply (average_nonneg _ _ AV). intros y Hy. apply Qlt_le_weak, (non_zero_pos c w P w1 N1). rewrite EN. auto.
        - rewrite N1. destruct (clearedb c j); [apply Qle_refl|auto]. }
      assert (S0 : (0 < sumQ w2)%Q).
      { apply (sumQ_pos w2 (nth i w2 0%Q)); auto; [apply nth_In; lia|].
        rewrite N2. unfold oopo_value. destruct (oopo c && (_ || _))%bool eqn:O; [|rewrite Ei; auto]. exfalso.
        rewrite N1 in Ei. destruct (clearedb c i) eqn:CL; [subst n0; exact (Qlt_irrefl _ A)|].
        apply andb_true_iff in O as [O1 O2]. unfold clearedb in CL. rewrite O1 in CL.
        rewrite !orb_false_iff in CL. destruct CL as [_ CL]. cbn [andb] in CL. apply orb_false_iff in CL as [CL1 CL2].
        rewrite CL1, CL2 in O2. discriminate O2. }
      destruct (Qeq_bool (sumQ w2) 0) eqn:Q; [apply Qeq_bool_eq in Q; lra|]. eauto.
    - rewrite Z. rewrite andb_true_r. destruct (oopo c) eqn:O; auto.
      replace (Qeq_bool (sumQ w2) 0) with true; auto. symmetry. apply Qeq_eq_bool. apply sumQ_zero.
      intros x Hx. apply (In_nth _ _ 0%Q) in Hx as [j [Hj Ej]]. subst x. rewrite N2. unfold oopo_value. rewrite O. cbn [andb].
      destruct (Qeq_bool (nth j w1 0%Q) 0%Q) eqn:Q; [apply Qeq_bool_eq; auto|]. exfalso.
      assert (I : In (nth j w1 0%Q) (non_zero w1)).
      { apply in_non_zero. split; [apply nth_In; lia|]. intros X. apply Qeq_eq_bool in X. congruence. }
      rewrite Z in I. destruct I. }
  destruct R as [R1 R2]. split; split.
  - intros [w' H]. apply NS. intros Z. rewrite (R2 Z) in H. discriminate.
  - intros H. apply R1, NS, H.
  - intros H i Hi. destruct (R1 (proj2 NS (ex_intro _ i Hi))) as [w' H']. congruence.
  - intros H. apply R2. destruct (non_zero w1) eqn:Z; auto. exfalso.
    destruct (proj1 NS ltac:(discriminate)) as [i Hi]. exact (H i Hi).
Qed.
Print Assumptions C58_defined.

(** every weighting was set to 0 by the guidelines or by the user: the weightings become NaN *)
Theorem C58_always_a_number_refuted : ~ (forall c coeff w, length w = 12%nat -> (forall i, 0 <= nth i w 0)%Q -> (0 <= coeff)%Q ->
  (exists i, (i < 12)%nat /\ 0 < nth i w 0)%Q -> exists w', filter_weightings c coeff w = Ok (Some w')).
Proof.
  intros H.
  set (c := {| sym := true; bal := true; ipo := true; oopo := false; dam_tol := false; dam_tol_rule := 1;
     covering := false; n_covering := 0; rule_10_percent := false; rule_10_Abdalla := false; percent_Abdalla := 0;
     percent_0 := 0; percent_45 := 0; percent_90 := 0; percent_135 := 0; percent_45_135 := 0; percent_tot := 0;
     diso := false; delta_angle := 45; contig := false; n_contig := 5; n_contig_c := None;
     set_of_angles := [-45; 0; 45; 90]; angles_bal := []; pdl_spacing := false; min_drop := 2 |}).
  destruct (H c 1%Q [0; 0; 1; 0; 0; 0; 0; 0; 0; 0; 0; 0]%Q) as [w' E]; try reflexivity.
  - intros i. do 12 (destruct i as [|i]; [cbn; lra|]). destruct i; cbn; lra.
  - lra.
  - exists 2%nat. split; [lia|cbn; lra].
  - vm_compute in E. discriminate.
Qed.
Print Assumptions C58_always_a_number_refuted.

(* ------------------------------------------------------------------ *)
(** * Construction of a panel *)

Theorem C58_construction : forall c a p, mk_panel c a = Ok p ->
  (1 <= n_plies p /\ n_plies p = a_n a)%Z /\
  (has_middle_ply p = true <-> sym c = true /\ Z.Odd (n_plies p)) /\
  (has_middle_ply p = true -> (middle_ply_index p - 1) + 1 + (middle_ply_index p - 1) = n_plies p) /\
  (has_middle_ply p = false -> middle_ply_index p = 0) /\
  (0 <= area p /\ 0 <= weighting p)%Q /\
  (~ a_lx a == 0 -> ~ a_ly a == 0 -> area p == a_lx a * a_ly a)%Q /\
  (a_lx a == 0 \/ a_ly a == 0 -> area p == a_area a)%Q /\
  (forall x, In x (lw_ini p) -> 0 <= x)%Q /\ target p = a_target a /\ lw_ini p = a_lw a.
Proof.
  intros c a p H. unfold mk_panel, set_n_plies in H.
  destruct (a_n a <? 1) eqn:G0; cbn [guard bind] in H; [discriminate|]. apply Z.ltb_ge in G0.
  destruct (if (sym c && _)%bool then _ else _) as [m|] eqn:EM; cbn [bind] in H; [|discriminate].
  destruct (Qltb (a_area a) 0) eqn:G1; cbn [guard bind] in H; [discriminate|].
  destruct (Qltb (a_lx a) 0) eqn:G2; cbn [guard bind] in H; [discriminate|].
  destruct (Qltb (a_ly a) 0) eqn:G3; cbn [guard bind] in H; [discriminate|].
  destruct (Qltb (a_weighting a) 0) eqn:G4; cbn [guard bind] in H; [discriminate|].
  destruct (existsb _ (a_lw a)) eqn:G5; cbn [guard bind] in H; [discriminate|]. injection H as <-.
  cbn [n_plies has_middle_ply middle_ply_index area weighting lw_ini target].
  assert (QG : forall x y, Qltb x y = false -> (y <= x)%Q).
  { intros x y E. unfold Qltb in E. apply negb_false_iff in E. apply Qle_bool_iff, E. }
  apply QG in G1, G2, G3, G4.
  assert (OD : (a_n a mod 2 =? 1)%Z = true <-> Z.Odd (a_n a)).
  { rewrite Z.eqb_eq, <- Z.odd_spec, Zmod_odd. destruct (Z.odd (a_n a)); split; congruence. }
  split; [lia|]. split; [|split; [|split; [|split]]].
  - destruct (sym c && _)%bool eqn:B in EM; injection EM as <-; cbn [fst].
    + apply andb_true_iff in B as [B1 B2]. split; auto. intros _. split; auto. apply OD; auto.
    + split; [discriminate|]. intros [S1 S2]. rewrite S1, (proj2 OD S2) in B. discriminate.
  - destruct (sym c && _)%bool eqn:B in EM; injection EM as <-; cbn [fst snd]; [intros _|discriminate].
    apply andb_true_iff in B as [_ B]. apply OD in B as [k B]. rewrite B. replace (2 * k + 1 + 1)%Z with ((k + 1) * 2)%Z by lia.
    rewrite Z.div_mul by lia. lia.
  - destruct (sym c && _)%bool eqn:B in EM; injection EM as <-; cbn [fst snd]; [discriminate|auto].
  - split; auto. clear EM. destruct (_ && _)%bool; auto. apply Qmult_le_0_compat; auto.
  - split; [|split; [|split; auto]].
    + intros X Y. replace (Qeq_bool (a_lx a) 0) with false by (symmetry; apply not_true_iff_false; rewrite Qeq_bool_iff; auto).
      replace (Qeq_bool (a_ly a) 0) with false by (symmetry; apply not_true_iff_false; rewrite Qeq_bool_iff; auto). reflexivity.
    + intros [X|X]; apply Qeq_eq_bool in X; rewrite X; cbn [negb andb]; rewrite ?andb_false_r; reflexivity.
    + intros x Hx. destruct (Qltb x 0) eqn:E; [|apply QG; auto].
      assert (existsb (fun x => Qltb x 0) (a_lw a) = true) by (apply existsb_exists; eauto). congruence.
Qed.
Print Assumptions C58_construction.

(** the check on the weightings does not test their number: a panel with 3 of them is accepted *)
Theorem C58_twelve_weightings_refuted : ~ (forall c a p, mk_panel c a = Ok p -> length (lw_ini p) = 12%nat).
Proof.
  intros H.
  set (c := {| sym := true; bal := true; ipo := true; oopo := false; dam_tol := false; dam_tol_rule := 1;
     covering := false; n_covering := 0; rule_10_percent := false; rule_10_Abdalla := false; percent_Abdalla := 0;
     percent_0 := 0; percent_45 := 0; percent_90 := 0; percent_135 := 0; percent_45_135 := 0; percent_tot := 0;
     diso := false; delta_angle := 45; contig := false; n_contig := 5; n_contig_c := None;
     set_of_angles := [-45; 0; 45; 90]; angles_bal := []; pdl_spacing := false; min_drop := 2 |}).
  specialize (H c {| a_n := 10; a_target := []; a_lw := [1; 1; 1]%Q; a_area := 1; a_lx := 0; a_ly := 0; a_weighting := 1 |}).
  specialize (H _ eq_refl). discriminate H.
Qed.
Print Assumptions C58_twelve_weightings_refuted.

(* ------------------------------------------------------------------ *)
(** * Targets *)

Definition off_target (c : cons) (i : nat) : Prop :=
  (sym c = true /\ (4 <= i < 8)%nat) \/ (bal c = true /\ (i = 2 \/ i = 3)%nat) \/ (oopo c = true /\ (i = 10 \/ i = 11)%nat).

Lemma off_target_b c i : off_target c i <-> target_clearedb c i = true.
Proof.
  unfold off_target, target_clearedb. rewrite !orb_true_iff, !andb_true_iff, !orb_true_iff, Nat.leb_le, Nat.ltb_lt, !Nat.eqb_eq. tauto.
Qed.

(** [heap]: the target arrays of the caller, [refs]: the array each panel holds; panels may share
    arrays. After the filter the array of every panel is its own target with the components switched
    off set to 0, the other arrays are untouched *)
Theorem C58_targets : forall c refs heap,
  (forall r, In r refs -> (r < length heap)%nat) -> (forall t, In t heap -> length t = 12%nat) ->
  exists heap', filter_targets c refs heap = Ok heap' /\ length heap' = length heap /\
  forall r t, nth_error heap r = Some t -> exists t', nth_error heap' r = Some t' /\
    (In r refs -> length t' = length t /\ forall i, (off_target c i -> nth i t' 0%Q = 0%Q) /\ (~ off_target c i -> nth i t' 0%Q = nth i t 0%Q)) /\
    (~ In r refs -> t' = t).
Proof.
  intros c refs heap B T. destruct (filter_targets_ok c refs heap B T) as [heap' E]. exists heap'. split; auto.
  apply filter_targets_spec in E as [L E]. split; auto. intros r t Ht. destruct (E r t Ht) as [t' [Ht' F]].
  exists t'. split; auto.
  assert (X : existsb (Nat.eqb r) refs = true <-> In r refs).
  { rewrite existsb_exists. split; [intros [x [Hx Ex]]; apply Nat.eqb_eq in Ex; subst; auto|intros; exists r; split; auto; apply Nat.eqb_refl]. }
  destruct (existsb (Nat.eqb r) refs).
  - split; [|intros N; destruct N; apply X; auto]. intros _. destruct F as [F1 F2]. split; auto. intros i. rewrite off_target_b, F2.
    destruct (target_clearedb c i); split; auto; congruence.
  - split; [intros I; apply X in I; discriminate|auto].
Qed.
Print Assumptions C58_targets.

(** filtering again changes nothing *)
Theorem C58_targets_idempotent : forall c t t' t'', filter_target c t = Ok t' -> filter_target c t' = Ok t'' -> t'' = t'.
Proof.
  intros c t t' t'' E1 E2. apply filter_target_spec in E1 as [L1 N1]. apply filter_target_spec in E2 as [L2 N2].
  apply (nth_ext _ _ 0%Q 0%Q); auto. intros i _. rewrite N2, N1. destruct (target_clearedb c i); auto.
Qed.
Print Assumptions C58_targets_idempotent.

(** a panel defined without a target (the default: an empty array) stops the filter *)
Theorem C58_default_target_refuted : ~ (forall c, exists t', filter_target c [] = Ok t').
Proof.
  intros H.
  set (c := {| sym := true; bal := true; ipo := true; oopo := false; dam_tol := false; dam_tol_rule := 1;
     covering := false; n_covering := 0; rule_10_percent := false; rule_10_Abdalla := false; percent_Abdalla := 0;
     percent_0 := 0; percent_45 := 0; percent_90 := 0; percent_135 := 0; percent_45_135 := 0; percent_tot := 0;
     diso := false; delta_angle := 45; contig := false; n_contig := 5; n_contig_c := None;
     set_of_angles := [-45; 0; 45; 90]; angles_bal := []; pdl_spacing := false; min_drop := 2 |}).
  destruct (H c) as [t' E]. vm_compute in E. discriminate.
Qed.
Print Assumptions C58_default_target_refuted.

(* ------------------------------------------------------------------ *)
(** * Consequence: the objective of a panel is between 0 and 4 *)

Lemma weighted_bound : forall w d, length w = length d -> (forall x, In x w -> 0 <= x)%Q -> (forall y, In y d -> 0 <= y /\ y <= 4)%Q ->
  (0 <= sumQ (zip_with Qmult w d) /\ sumQ (zip_with Qmult w d) <= 4 * sumQ w)%Q.
Proof.
  induction w as [|x w IH]; intros [|y d] L W D; try discriminate L.
  - cbn. lra.
  - unfold zip_with in *. cbn [List.combine map fst snd].
    destruct (IH d) as [A B]; [injection L; auto|intros; apply W; right; auto|intros; apply D; right; auto|].
    set (r := sumQ (map _ _)) in *. change (sumQ (x * y :: map (fun p : Q * Q => fst p * snd p) (List.combine w d))%Q) with (x * y + r)%Q.
    change (sumQ (x :: w)) with (x + sumQ w)%Q.
    pose proof (W x (or_introl eq_refl)) as X. destruct (D y (or_introl eq_refl)) as [Y1 Y2]. split; nra.
Qed.

Theorem C58_objective_range : forall c coeff w w' lampam target,
  length w = 12%nat -> (forall i, 0 <= nth i w 0)%Q -> (0 <= coeff)%Q ->
  filter_weightings c coeff w = Ok (Some w') ->
  length lampam = 12%nat -> length target = 12%nat ->
  (forall i, -1 <= nth i lampam 0 /\ nth i lampam 0 <= 1)%Q -> (forall i, -1 <= nth i target 0 /\ nth i target 0 <= 1)%Q ->
  exists v, calc_obj_one_panel lampam target w' = Ok v /\ (0 <= v /\ v <= 4)%Q.
Proof.
  intros c coeff w w' la ta L P C E LL LT BL BT.
  destruct (C58_weightings c coeff w w' L P C E) as [L' [NN [S1 _]]].
  unfold calc_obj_one_panel. rewrite L', LL, LT. cbn [Nat.eqb andb]. eexists. split; [reflexivity|].
  assert (D : length w' = length (map (fun x => (x * x)%Q) (zip_with Qminus la ta))).
  { rewrite map_length. unfold zip_with. rewrite map_length, combine_length, LL, LT, L'. reflexivity. }
  destruct (weighted_bound w' (map (fun x => (x * x)%Q) (zip_with Qminus la ta)) D) as [A B].
  - intros x Hx. apply (In_nth _ _ 0%Q) in Hx as [i [_ Ei]]. subst x. auto.
  - intros y Hy. apply in_map_iff in Hy as [z [Ez Hz]]. subst y. unfold zip_with in Hz. apply in_map_iff in Hz as [[u v] [Ez Hz]]. subst z.
    cbn [fst snd]. apply (In_nth _ _ (0%Q, 0%Q)) in Hz as [i [Hi Ei]]. rewrite combine_nth in Ei by congruence. injection Ei as <- <-.
    destruct (BL i), (BT i). set (a := nth i la 0%Q) in *. set (b := nth i ta 0%Q) in *. clearbody a b.
    assert (D1 : (-2 <= a - b)%Q) by lra. assert (D2 : (a - b <= 2)%Q) by lra. set (d := (a - b)%Q) in *. clearbody d.
    split; [destruct (Qlt_le_dec d 0); nra|nra].
  - rewrite S1 in B. split; lra.
Qed.
Print Assumptions C58_objective_range.

(** a symmetric laminate with the four angles, balance and out-of-plane orthotropy; weightings of 1 *)
Theorem C58_example :
  let c := {| sym := true; bal := true; ipo := true; oopo := true; dam_tol := false; dam_tol_rule := 1;
     covering := false; n_covering := 0; rule_10_percent := false; rule_10_Abdalla := false; percent_Abdalla := 0;
     percent_0 := 0; percent_45 := 0; percent_90 := 0; percent_135 := 0; percent_45_135 := 0; percent_tot := 0;
     diso := false; delta_angle := 45; contig := false; n_contig := 5; n_contig_c := None;
     set_of_angles := [-45; 0; 45; 90]; angles_bal := []; pdl_spacing := false; min_drop := 2 |} in
  (exists w', filter_weightings c 2 (repeat 1%Q 12) = Ok (Some w') /\ map Qred w' = [1 # 6; 1 # 6; 0; 0; 0; 0; 0; 0; 1 # 6; 1 # 6; 1 # 3; 0]%Q) /\
  filter_targets c [0%nat; 1%nat; 0%nat] [repeat 1%Q 12; repeat 2%Q 12; repeat 3%Q 12] =
    Ok [[1; 1; 0; 0; 0; 0; 0; 0; 1; 1; 0; 0]; [2; 2; 0; 0; 0; 0; 0; 0; 2; 2; 0; 0]; repeat 3 12]%Q /\
  (exists p, mk_panel c {| a_n := 11; a_target := []; a_lw := repeat 1%Q 12; a_area := 0; a_lx := 2; a_ly := 3; a_weighting := 1 |} = Ok p /\
     has_middle_ply p = true /\ middle_ply_index p = 6 /\ (area p == 6)%Q).
Proof.
  split; [|split].
  - eexists. split; vm_compute; reflexivity.
  - vm_compute. reflexivity.
  - eexists. split; [reflexivity|]. split; [reflexivity|]. split; [reflexivity|]. cbn. reflexivity.
Qed.
Print Assumptions C58_example.

(** the weight of a panel: its volume (area times laminate thickness) times the density of the
    material, the density per area of a ply being that of a ply of thickness t *)
Theorem C58_weight : forall density_area density_volume t p, (density_area == density_volume * t)%Q ->
  (calc_weight_panel density_area p == density_volume * (area p * (inject_Z (n_plies p) * t)))%Q.
Proof. intros da dv t p H. unfold calc_weight_panel. rewrite H. ring. Qed.
Print Assumptions C58_weight.
