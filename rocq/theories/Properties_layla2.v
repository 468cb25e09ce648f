(* Properties_layla2.v - property theorems C75-C77 (LAYLA: weightings, objectives, outer loop). *)
From Coq Require Import Lqa Qminmax.
From Verif Require Import Base Uniq Divers DiversProofs Spacing Constraints Guidelines Divide DivideProofs
  Moments MomentsProofs Properties_moments Search SearchProofs Panel PanelProofs Properties_panel Layla Properties_layla.
Local Open Scope Z_scope.

(* ------------------------------------------------------------------ *)
(** ** C75 *)

Lemma normalised_spec l : (forall x, In x l -> 0 <= x)%Q -> forall x, In x l -> (0 < x)%Q ->
  (0 < sumQ l)%Q /\ normalised l = Some (map (fun x => x / sumQ l)%Q l).
Proof.
  intros Hn x Hx Hp. pose proof (sumQ_pos l x Hn Hx Hp) as P. split; auto. unfold normalised.
  destruct (Qeq_bool (sumQ l) 0) eqn:E; auto. apply Qeq_bool_eq in E. lra.
Qed.

Lemma nth_weighted w m c : (c < 12)%nat -> nth c (weighted_row w m) 0%Q = (nth c w 0 * moment_of c m)%Q.
Proof.
  intros H. unfold weighted_row. rewrite (nth_indep _ _ ((fun c => nth c w 0 * moment_of c m)%Q 0%nat)) by (rewrite map_length, seq_length; auto).
  rewrite (map_nth (fun c => nth c w 0 * moment_of c m)%Q), seq_nth by auto. reflexivity.
Qed.

(** At every level, the weightings are the weightings of the laminate multiplied by the share of
    the plies known so far in the moment of area of each lamination parameter, scaled to add up
    to one; a number as soon as one weighting is positive *)
Theorem C75_level_weightings : forall (sym : bool) n sizes rows cum grp w,
  (1 <= n)%nat -> (forall x, In x sizes -> 1 <= x) -> sumZ sizes = zlen (ply_order sym n) ->
  calc_mom_of_areas sym n sizes = Ok (rows, cum, grp) ->
  length w = 12%nat -> (forall x, In x w -> 0 <= x)%Q -> (exists x, In x w /\ 0 < x)%Q ->
  length (level_weightings w cum) = length (ply_order sym n) /\
  forall j, (j < length (ply_order sym n))%nat -> exists row,
    nth j (level_weightings w cum) None = Some row /\ length row = 12%nat /\
    (forall x, In x row -> 0 <= x)%Q /\ (sumQ row == 1)%Q /\
    forall c d, (c < 12)%nat -> (d < 12)%nat ->
      let share e := sumQ (map (ply_share sym (e / 4) n) (firstn (S j) (ply_order sym n))) in
      (nth c row 0 * (nth d w 0 * share d) == nth d row 0 * (nth c w 0 * share c))%Q /\
      (nth c row 0 == 0 <-> nth c w 0 == 0)%Q.
Proof.
  intros sym n sizes rows cum grp w Hn Hs Su E Lw Hw [x0 [Ix Px]].
  destruct (C73_moments sym n sizes Hn Hs Su) as [levels [rows' [cum' [grp' [_ [E' [L1 [L2 [_ HM]]]]]]]]].
  rewrite E in E'. injection E' as <- <- <-.
  pose proof (fun k Hk => C73_normalised sym n sizes rows cum grp Hn Hs Su E k Hk) as HN.
  unfold level_weightings. split; [rewrite map_length; auto|]. intros j Hj.
  set (m := nth j cum mom0).
  assert (Hm : forall c, (c < 12)%nat -> (0 < moment_of c m)%Q /\
     (moment_of c m == sumQ (map (ply_share sym (c / 4) n) (firstn (S j) (ply_order sym n))))%Q).
  { intros c Hc. assert (Hk : (c / 4 < 3)%nat) by (apply Nat.div_lt_upper_bound; lia).
    assert (Ec : moment_of c m = column (c / 4) m).
    { unfold moment_of, column. do 12 (destruct c as [|c]; [reflexivity|]). lia. }
    rewrite Ec. split; [apply (HN _ Hk); lia|]. destruct (HM _ Hk) as [_ [A _]]. apply A. lia. }
  assert (Nn : forall x, In x (weighted_row w m) -> (0 <= x)%Q).
  { intros x Hx. unfold weighted_row in Hx. apply in_map_iff in Hx as [c [<- Hc]]. apply in_seq in Hc.
    destruct (Hm c ltac:(lia)) as [P _]. apply Qmult_le_0_compat; [apply Hw, nth_In; lia | lra]. }
  assert (Ex : exists x, In x (weighted_row w m) /\ (0 < x)%Q).
  { apply (In_nth _ _ 0%Q) in Ix as [c [Hc Ec]]. exists (nth c w 0 * moment_of c m)%Q. split.
    - unfold weighted_row. apply in_map_iff. exists c. split; auto. apply in_seq. lia.
    - destruct (Hm c ltac:(lia)) as [P _]. rewrite Ec. nra. }
  destruct Ex as [x [I P]]. destruct (normalised_spec _ Nn x I P) as [Sp En].
  set (T := sumQ (weighted_row w m)) in *.
  exists (map (fun x => x / T)%Q (weighted_row w m)). split.
  { rewrite (nth_indep _ _ (normalised (weighted_row w mom0))) by (rewrite map_length; lia).
    rewrite (map_nth (fun m => normalised (weighted_row w m))). exact En. }
  split; [unfold weighted_row; rewrite !map_length; apply seq_length|].
  split. { intros y Hy. apply in_map_iff in Hy as [z [<- Hz]]. apply Qle_shift_div_l; auto. rewrite Qmult_0_l. auto. }
  split. { rewrite PanelProofs.sumQ_scale. fold T. field. lra. }
  intros c d Hc Hd.
  assert (Nt : forall e, (e < 12)%nat -> nth e (map (fun x => x / T)%Q (weighted_row w m)) 0%Q = (nth e w 0 * moment_of e m / T)%Q).
  { intros e He. rewrite (nth_indep _ _ (0 / T)%Q) by (unfold weighted_row; rewrite !map_length, seq_length; auto).
    rewrite (map_nth (fun x => x / T)%Q). rewrite nth_weighted by auto. reflexivity. }
  rewrite !Nt by auto. destruct (Hm c Hc) as [P1 E1]. destruct (Hm d Hd) as [_ E2]. rewrite <- E1, <- E2.
  split; [field; lra|]. split; intros H0.
  - assert (A : (nth c w 0 * moment_of c m == 0)%Q).
    { assert (B : (nth c w 0 * moment_of c m == nth c w 0 * moment_of c m / T * T)%Q) by (field; lra). rewrite B, H0. ring. }
    apply Qmult_integral in A as [A|A]; auto. rewrite A in P1. lra.
  - rewrite H0. field. lra.
Qed.
Print Assumptions C75_level_weightings.

(** refuted without a positive weighting: NaN at every level *)
Theorem C75_no_weighting : forall cum, level_weightings (repeat 0%Q 12) cum = map (fun _ => None) cum.
Proof.
  intros cum. unfold level_weightings. apply map_ext. intros m. unfold normalised.
  destruct (Qeq_bool _ 0) eqn:E; auto. assert (A : (sumQ (weighted_row (repeat 0%Q 12) m) == 0)%Q).
  { apply sumQ_zero. intros x Hx. unfold weighted_row in Hx. apply in_map_iff in Hx as [c [<- Hc]]. rewrite nth_repeat. ring. }
  apply Qeq_eq_bool in A. congruence.
Qed.
Print Assumptions C75_no_weighting.

(** the objective of the API: weighted sum of the squares (type 2) or of the absolute values
    (type 1) of the differences *)
Definition layla_objective_spec (type : Z) (lp target w : list Q) : Q :=
  sumQ (map (fun i => let d := (nth i lp 0 - nth i target 0)%Q in nth i w 0 * (if (type =? 2)%Z then d * d else Qabs d))%Q (seq 0 (length lp))).

Lemma combine3_nth : forall (f : Q -> Q -> Q -> Q) lp target w, length target = length lp -> length w = length lp ->
  map (fun p => f (fst (fst p)) (snd (fst p)) (snd p)) (List.combine (List.combine lp target) w) =
  map (fun i => f (nth i lp 0%Q) (nth i target 0%Q) (nth i w 0%Q)) (seq 0 (length lp)).
Proof.
  intros f. induction lp as [|a lp IH]; intros [|t target] [|x w] H1 H2; try discriminate; [reflexivity|].
  cbn [List.combine map length seq fst snd nth]. f_equal. rewrite <- seq_shift, map_map. apply IH; auto.
Qed.

Theorem C75_objective : forall type lp target w,
  (type = 1 \/ type = 2) /\ length target = length lp /\ length w = length lp <->
  exists q, layla_objective type lp target w = Ok q /\ q = layla_objective_spec type lp target w.
Proof.
  intros type lp target w. unfold layla_objective, layla_objective_spec. split.
  - intros [Ht [L1 L2]]. assert (T : ((type =? 2) || (type =? 1))%bool = true) by (destruct Ht as [->| ->]; reflexivity).
    rewrite T. rewrite L1, L2, !Nat.eqb_refl. cbn [andb]. eexists. split; [reflexivity|]. f_equal.
    rewrite (combine3_nth (fun a t x => x * objective_term type (a - t))%Q) by auto. reflexivity.
  - intros [q [H _]]. destruct (Z.eqb_spec type 2), (Z.eqb_spec type 1); cbn [orb] in H; try discriminate;
      (split; [tauto|]; destruct (Nat.eqb_spec (length lp) (length target)), (Nat.eqb_spec (length w) (length lp)); cbn [andb] in H; try discriminate; split; congruence).
Qed.
Print Assumptions C75_objective.

(** it is never negative, and zero exactly when the lamination parameters with a positive
    weighting are on target; the penalties can only increase it *)
Theorem C75_objective_meaning : forall type lp target w q,
  layla_objective type lp target w = Ok q -> (forall x, In x w -> 0 <= x)%Q ->
  (0 <= q)%Q /\
  ((q == 0)%Q <-> forall i, (i < length lp)%nat -> (0 < nth i w 0)%Q -> (nth i lp 0 == nth i target 0)%Q) /\
  forall p10 pbal poopo c10 cbal coopo,
    (0 <= p10 -> 0 <= pbal -> 0 <= poopo -> 0 <= c10 -> 0 <= cbal -> 0 <= coopo ->
     q <= calc_obj_multi_ss q p10 pbal poopo c10 cbal coopo /\
     (0 < q -> (calc_obj_multi_ss q p10 pbal poopo c10 cbal coopo == q <-> c10 * p10 == 0 /\ cbal * pbal == 0 /\ coopo * poopo == 0)))%Q.
Proof.
  intros type lp target w q E Hw.
  assert (Sp : q = layla_objective_spec type lp target w /\ length w = length lp).
  { assert (C : exists q', layla_objective type lp target w = Ok q' /\ q' = layla_objective_spec type lp target w).
    { apply C75_objective. unfold layla_objective in E. destruct (Z.eqb_spec type 2), (Z.eqb_spec type 1); cbn [orb] in E; try discriminate;
      (split; [tauto|]; destruct (Nat.eqb_spec (length lp) (length target)), (Nat.eqb_spec (length w) (length lp)); cbn [andb] in E; try discriminate; split; congruence). }
    split; [destruct C as [q' [E' ->]]; congruence|]. apply C75_objective in C. tauto. }
  destruct Sp as [-> Lw]. clear E. set (q := layla_objective_spec type lp target w).
  set (term := fun i => let d := (nth i lp 0 - nth i target 0)%Q in (nth i w 0 * (if (type =? 2)%Z then d * d else Qabs d))%Q).
  assert (Wn : forall i, (0 <= nth i w 0)%Q).
  { intros i. destruct (Nat.lt_ge_cases i (length w)) as [L|L]; [apply Hw, nth_In; auto|rewrite nth_overflow by auto; apply Qle_refl]. }
  assert (Dn : forall d : Q, (0 <= if (type =? 2)%Z then d * d else Qabs d)%Q).
  { intros d. destruct (type =? 2); [nra | apply Qabs_nonneg]. }
  assert (Tn : forall i, (0 <= term i)%Q) by (intros i; unfold term; cbv zeta; apply Qmult_le_0_compat; auto).
  assert (Qn : (0 <= q)%Q).
  { unfold q, layla_objective_spec. apply sumQ_nonneg. intros x Hx. apply in_map_iff in Hx as [i [<- _]]. apply Tn. }
  split; auto. split.
  - split.
    + intros Z0 i Hi Pi. destruct (Qlt_le_dec 0 (term i)) as [P|P].
      * exfalso. assert (0 < q)%Q; [|lra]. unfold q, layla_objective_spec. fold term. apply sumQ_pos with (term i); auto.
        -- intros x Hx. apply in_map_iff in Hx as [k [<- _]]. apply Tn.
        -- apply in_map_iff. exists i. split; auto. apply in_seq. lia.
      * assert (T0 : (term i == 0)%Q) by (pose proof (Tn i); lra). unfold term in T0. apply Qmult_integral in T0 as [T0|T0]; [lra|].
        set (d := (nth i lp 0 - nth i target 0)%Q) in *. assert (D0 : (d == 0)%Q).
        { destruct (type =? 2); [apply Qmult_integral in T0; tauto|]. destruct (Qlt_le_dec d 0).
          - rewrite Qabs_neg in T0 by lra. lra.
          - rewrite Qabs_pos in T0 by auto. auto. }
        unfold d in D0. lra.
    + intros H. unfold q, layla_objective_spec. apply sumQ_zero. intros x Hx. apply in_map_iff in Hx as [i [<- Hi]]. apply in_seq in Hi.
      destruct (Qlt_le_dec 0 (nth i w 0%Q)) as [P|P].
      * specialize (H i ltac:(lia) P). assert (D0 : (nth i lp 0 - nth i target 0 == 0)%Q) by lra.
        cbv zeta. destruct (type =? 2); rewrite D0; [ring|]. change (Qabs 0) with 0%Q. ring.
      * assert (W0 : (nth i w 0 == 0)%Q) by (pose proof (Wn i); lra). cbv zeta. rewrite W0. ring.
  - intros p10 pbal poopo c10 cbal coopo H1 H2 H3 H4 H5 H6. unfold calc_obj_multi_ss.
    assert (A : (0 <= c10 * p10)%Q) by nra. assert (B : (0 <= cbal * pbal)%Q) by nra. assert (C : (0 <= coopo * poopo)%Q) by nra.
    set (a := (c10 * p10)%Q) in *. set (b := (cbal * pbal)%Q) in *. set (c := (coopo * poopo)%Q) in *. clearbody q a b c.
    assert (F : (q * (1 + a) * (1 + b) * (1 + c) == q + q * (a + b + c + a * b + a * c + b * c + a * b * c))%Q) by ring.
    assert (Ab : (0 <= a * b)%Q) by nra. assert (Ac : (0 <= a * c)%Q) by nra. assert (Bc : (0 <= b * c)%Q) by nra.
    assert (Abc : (0 <= a * b * c)%Q) by nra.
    set (e := (a + b + c + a * b + a * c + b * c + a * b * c)%Q) in *. assert (He : (0 <= e)%Q) by (unfold e; lra).
    assert (Qe : (0 <= q * e)%Q) by nra.
    split; [lra|]. intros Qp. rewrite F. split; intros H.
    + assert (e0 : (q * e == 0)%Q) by lra. apply Qmult_integral in e0 as [e0|e0]; [lra|]. unfold e in e0. repeat split; lra.
    + destruct H as [Ha [Hb Hc]]. assert (e0 : (e == 0)%Q) by (unfold e; rewrite Ha, Hb, Hc; ring). rewrite e0. ring.
Qed.
Print Assumptions C75_objective_meaning.

(** the targets: the components of the guidelines that are strictly enforced become zero, the
    others do not change, and a second filtering changes nothing *)
Definition layla_off (sym ipo oopo : bool) (i : nat) : Prop :=
  (sym = true /\ (4 <= i < 8)%nat) \/ (ipo = true /\ (i = 2%nat \/ i = 3%nat)) \/ (oopo = true /\ (i = 10%nat \/ i = 11%nat)).

Theorem C75_targets : forall sym ipo oopo t, length t = 12%nat ->
  exists t', layla_filter_target sym ipo oopo t = Ok t' /\ length t' = 12%nat /\
    (forall i, layla_off sym ipo oopo i -> nth i t' 0%Q = 0%Q) /\
    (forall i, ~ layla_off sym ipo oopo i -> nth i t' 0%Q = nth i t 0%Q) /\
    layla_filter_target sym ipo oopo t' = Ok t'.
Proof.
  intros sym ipo oopo t H. destruct (twelve t H) as [x0 [x1 [x2 [x3 [x4 [x5 [x6 [x7 [x8 [x9 [x10 [x11 ->]]]]]]]]]]]].
  unfold layla_filter_target, layla_off. destruct sym, ipo, oopo;
    (eexists; split; [reflexivity|]; split; [reflexivity|]; split; [|split; [|reflexivity]]; intros i Hi;
     do 12 (destruct i as [|i]; [first [reflexivity | exfalso; lia | exfalso; apply Hi; tauto | exfalso; apply Hi; left; split; [reflexivity|lia]]|]);
     destruct i; reflexivity).
Qed.
Print Assumptions C75_targets.

Example C75_example :
  (exists rows cum grp, calc_mom_of_areas true 5 [2; 1] = Ok (rows, cum, grp) /\ sumZ [2; 1] = zlen (ply_order true 5)) /\
  layla_objective 2 [1 # 2; 1 # 3]%Q [0; 1 # 3]%Q [1; 1]%Q <> Err ValueError.
Proof. split; [do 3 eexists; split; reflexivity | discriminate]. Qed.

(* ------------------------------------------------------------------ *)
(** ** C76 *)

(** lamination parameters (0..11) that carry no user weighting: symmetry, the four standard fibre
    angles, in-plane and out-of-plane orthotropy *)
Definition lay_off (sym std ipo oopo : bool) (i : nat) : Prop :=
  (sym = true /\ (4 <= i < 8)%nat) \/ (std = true /\ (i = 3 \/ i = 7 \/ i = 11)%nat) \/
  (ipo = true /\ (i = 2 \/ i = 3)%nat) \/ (oopo = true /\ (i = 10 \/ i = 11)%nat).

(** components whose weighting is the penalty for in-plane (out-of-plane) orthotropy *)
Definition ipo_penalty (std ipo ipo_switch : bool) (i : nat) : Prop :=
  ipo = true /\ ipo_switch = true /\ (i = 2%nat \/ (i = 3%nat /\ std = false)).
Definition oopo_penalty (std oopo : bool) (i : nat) : Prop :=
  oopo = true /\ (i = 10%nat \/ (i = 11%nat /\ std = false)).
(** the in-plane penalty without out-of-plane orthotropy, with the standard angles *)
Definition overwritten (std ipo ipo_switch oopo : bool) (i : nat) : Prop :=
  ipo = true /\ ipo_switch = true /\ oopo = false /\ std = true /\ i = 10%nat.

Definition lay_in_use (sym std ipo oopo : bool) (w : list Q) (i : nat) : Prop :=
  (i < 12)%nat /\ ~ lay_off sym std ipo oopo i /\ ~ (nth i w 0 == 0)%Q.

Definition lay_offb (sym std ipo oopo : bool) (i : nat) : bool :=
  ((sym && (4 <=? i)%nat && (i <? 8)%nat) || (std && ((i =? 3)%nat || (i =? 7)%nat || (i =? 11)%nat))
  || (ipo && ((i =? 2)%nat || (i =? 3)%nat)) || (oopo && ((i =? 10)%nat || (i =? 11)%nat)))%bool.

Lemma lay_offb_spec sym std ipo oopo i : lay_off sym std ipo oopo i <-> lay_offb sym std ipo oopo i = true.
Proof.
  unfold lay_off, lay_offb. rewrite !orb_true_iff, !andb_true_iff, !orb_true_iff, Nat.leb_le, Nat.ltb_lt, !Nat.eqb_eq. tauto.
Qed.

Lemma cleared_spec sym std ipo oopo w : length w = 12%nat ->
  exists w', cleared_sensitivities sym std ipo oopo w = Ok w' /\ length w' = 12%nat /\
  forall i, nth i w' 0%Q = if lay_offb sym std ipo oopo i then 0%Q else nth i w 0%Q.
Proof.
  intros H. destruct (twelve w H) as [x0 [x1 [x2 [x3 [x4 [x5 [x6 [x7 [x8 [x9 [x10 [x11 ->]]]]]]]]]]]].
  unfold cleared_sensitivities, lay_offb. destruct sym, std, ipo, oopo;
    (eexists; split; [reflexivity|]; split; [reflexivity|]; intros i;
     do 12 (destruct i as [|i]; [reflexivity|]); cbn [nth andb orb Nat.leb Nat.ltb Nat.eqb]; destruct i; reflexivity).
Qed.

Definition penalty_value (std ipo sw oopo : bool) (ci co m : Q) (w : list Q) (i : nat) : Q :=
  if (ipo && sw && ((i =? 2)%nat || ((i =? 3)%nat && negb std)))%bool then (m * ci)%Q
  else if (oopo && ((i =? 10)%nat || ((i =? 11)%nat && negb std)))%bool then (m * co)%Q
  else if (ipo && sw && negb oopo && std && (i =? 10)%nat)%bool then (m * co)%Q
  else nth i w 0%Q.

Lemma orthotropy_spec std ipo sw oopo ci co m w : length w = 12%nat ->
  exists w', orthotropy_sensitivities std ipo sw oopo ci co m w = Ok w' /\ length w' = 12%nat /\
  forall i, nth i w' 0%Q = penalty_value std ipo sw oopo ci co m w i.
Proof.
  intros H. destruct (twelve w H) as [x0 [x1 [x2 [x3 [x4 [x5 [x6 [x7 [x8 [x9 [x10 [x11 ->]]]]]]]]]]]].
  unfold orthotropy_sensitivities, penalty_value. destruct std, ipo, sw, oopo;
    (eexists; split; [reflexivity|]; split; [reflexivity|]; intros i;
     do 12 (destruct i as [|i]; [reflexivity|]); cbn [nth andb orb negb Nat.leb Nat.ltb Nat.eqb]; destruct i; reflexivity).
Qed.

Lemma nth_div l k i : (nth i (map (fun x => x / k)%Q l) 0 == nth i l 0 / k)%Q.
Proof.
  destruct (Nat.lt_ge_cases i (length l)) as [Hi|Hi].
  - rewrite (nth_indep _ 0%Q (0 / k)%Q) by (rewrite map_length; auto). rewrite (map_nth (fun x => x / k)%Q). reflexivity.
  - rewrite !nth_overflow by (rewrite ?map_length; auto). unfold Qdiv. rewrite Qmult_0_l. reflexivity.
Qed.

Lemma products_nth : forall a b i, length a = length b -> (nth i (products a b) 0 == nth i a 0 * nth i b 0)%Q.
Proof.
  unfold products. induction a as [|x a IH]; intros [|y b] i H; try discriminate; [destruct i; cbn; ring|].
  destruct i as [|i]; cbn [List.combine map nth fst snd]; [reflexivity|]. apply IH. cbn in H. lia.
Qed.

Lemma products_length a b : length a = length b -> length (products a b) = length a.
Proof. intros H. unfold products. rewrite map_length, combine_length. lia. Qed.

Section Weights.
Variables (sym std ipo sw oopo : bool) (ci co : Q) (sens tbo : list Q).
Hypothesis Ls : length sens = 12%nat.
Hypothesis Lt : length tbo = 12%nat.
Hypothesis Ns : forall x, In x sens -> (0 <= x)%Q.
Hypothesis Nt : forall x, In x tbo -> (0 <= x)%Q.
Hypothesis Nci : (0 <= ci)%Q.
Hypothesis Nco : (0 <= co)%Q.

Lemma product_nonneg i : (0 <= nth i (products sens tbo) 0)%Q.
Proof.
  rewrite products_nth by lia. apply Qmult_le_0_compat.
  - destruct (Nat.lt_ge_cases i (length sens)); [apply Ns, nth_In; auto|rewrite nth_overflow by auto; apply Qle_refl].
  - destruct (Nat.lt_ge_cases i (length tbo)); [apply Nt, nth_In; auto|rewrite nth_overflow by auto; apply Qle_refl].
Qed.

Lemma list_nonneg (l : list Q) : (forall i, 0 <= nth i l 0)%Q -> forall x, In x l -> (0 <= x)%Q.
Proof. intros H x Hx. apply (In_nth _ _ 0%Q) in Hx as [i [_ Ei]]. subst x. auto. Qed.

(** everything the function does, in one statement *)
Lemma weights_steps :
  weights_calculation sym std ipo sw oopo ci co sens tbo = Err (Raised BadDefinition) /\ (sumQ (products sens tbo) == 0)%Q \/
  exists ini w1, (0 < sumQ (products sens tbo))%Q /\ length ini = 12%nat /\ length w1 = 12%nat /\
    (forall i, nth i ini 0 == nth i (products sens tbo) 0 / sumQ (products sens tbo))%Q /\ (sumQ ini == 1)%Q /\
    (forall i, nth i w1 0%Q = if lay_offb sym std ipo oopo i then 0%Q else nth i ini 0%Q) /\
    ((non_zero w1 = [] /\ weights_calculation sym std ipo sw oopo ci co sens tbo = Ok (None, ini)) \/
     exists m w2, average (non_zero w1) = Some m /\ (0 < m)%Q /\ length w2 = 12%nat /\
       (forall i, nth i w2 0%Q = penalty_value std ipo sw oopo ci co m w1 i) /\ (forall i, 0 <= nth i w2 0)%Q /\
       weights_calculation sym std ipo sw oopo ci co sens tbo = Ok (normalised w2, ini)).
Proof.
  unfold weights_calculation. set (p := products sens tbo).
  assert (Pn : forall i, (0 <= nth i p 0)%Q) by apply product_nonneg.
  destruct (Qeq_bool (sumQ p) 0) eqn:Z; cbn [guard bind].
  { left. split; auto. apply Qeq_bool_eq; auto. }
  right. assert (S0 : (0 < sumQ p)%Q).
  { pose proof (sumQ_nonneg p (list_nonneg p Pn)) as A. apply Qle_lteq in A as [A|A]; auto. symmetry in A. apply Qeq_eq_bool in A. congruence. }
  set (ini := map (fun x => x / sumQ p)%Q p).
  assert (Li : length ini = 12%nat) by (unfold ini; rewrite map_length; unfold p; rewrite products_length; lia).
  assert (In' : forall i, (nth i ini 0 == nth i p 0 / sumQ p)%Q) by (intros; apply nth_div).
  assert (Si : (sumQ ini == 1)%Q) by (unfold ini; rewrite PanelProofs.sumQ_scale; field; lra).
  assert (Ni : forall i, (0 <= nth i ini 0)%Q).
  { intros i. rewrite In'. apply Qle_shift_div_l; auto. rewrite Qmult_0_l. auto. }
  destruct (cleared_spec sym std ipo oopo ini Li) as [w1 [E1 [L1 N1]]]. rewrite E1. cbn [bind].
  exists ini, w1. do 6 (split; auto).
  assert (Pos : forall x, In x (non_zero w1) -> (0 < x)%Q).
  { intros x Hx. apply in_non_zero in Hx as [I Z0]. apply (In_nth _ _ 0%Q) in I as [i [_ E]]. subst x. rewrite N1 in *.
    destruct (lay_offb _ _ _ _ i); [destruct Z0; reflexivity|]. specialize (Ni i).
    apply Qle_lteq in Ni as [A|A]; auto. destruct Z0. symmetry; auto. }
  destruct (non_zero w1) as [|x nz] eqn:En; [left; split; auto|]. right.
  assert (Mp : exists m, average (x :: nz) = Some m /\ (0 < m)%Q).
  { eexists. split; [reflexivity|]. apply Qlt_shift_div_l.
    - change 0%Q with (inject_Z 0). rewrite <- Zlt_Qlt. unfold zlen. cbn [length]. lia.
    - rewrite Qmult_0_l. apply sumQ_pos with x; [intros y Hy; apply Qlt_le_weak, Pos; auto | left; auto | apply Pos; left; auto]. }
  destruct Mp as [m [Em Pm]]. rewrite Em.
  destruct (orthotropy_spec std ipo sw oopo ci co m w1 L1) as [w2 [E2 [L2 N2]]]. rewrite E2. cbn [bind].
  exists m, w2. do 4 (split; auto). split; [|auto]. intros i. rewrite N2. unfold penalty_value.
  destruct (_ && _)%bool; [nra|]. destruct (_ && _)%bool; [nra|]. destruct (_ && _)%bool; [nra|].
  rewrite N1. destruct (lay_offb _ _ _ _ i); [apply Qle_refl|auto].
Qed.
End Weights.

Lemma lay_used_perm sym std ipo oopo w w' used : length w' = 12%nat ->
  (forall i, nth i w' 0%Q = if lay_offb sym std ipo oopo i then 0%Q else nth i w 0%Q) ->
  NoDup used -> (forall i, In i used <-> lay_in_use sym std ipo oopo w i) ->
  Permutation (non_zero w') (map (fun i => nth i w 0%Q) used).
Proof.
  intros L' N ND U. rewrite (Properties_panel.non_zero_seq w' 0 (fun i => nth i w' 0%Q)) by auto. rewrite L'.
  set (f := filter _ _).
  assert (E : forall i, In i f <-> In i used).
  { intros i. unfold f. rewrite filter_In, in_seq, U, N. unfold lay_in_use. rewrite lay_offb_spec.
    destruct (lay_offb sym std ipo oopo i) eqn:K.
    - split; [intros [_ H]; discriminate H|intros [_ [H _]]; congruence].
    - rewrite negb_true_iff. split.
      + intros [A B]. split; [lia|]. split; [congruence|]. intros Z. apply Qeq_eq_bool in Z. congruence.
      + intros [A [_ Z]]. split; [lia|]. destruct (Qeq_bool (nth i w 0%Q) 0%Q) eqn:Q; auto. apply Qeq_bool_eq in Q. contradiction. }
  transitivity (map (fun i => nth i w' 0%Q) used).
  - apply Permutation_map, NoDup_Permutation; auto. apply NoDup_filter, seq_NoDup.
  - erewrite map_ext_in; [apply Permutation_refl|]. intros i Hi. cbn beta. rewrite N. apply U in Hi as [_ [O _]].
    rewrite lay_offb_spec in O. destruct (lay_offb sym std ipo oopo i); congruence.
Qed.

(** The weightings of the user, and the weightings used: twelve non-negative numbers that add up
    to one; the components in use keep their proportions, the others are zero or the penalty
    coefficient times the mean of the weightings in use *)
Theorem C76_weightings_partial : forall (sym std ipo sw oopo : bool) ci co sens tbo w ini,
  length sens = 12%nat -> length tbo = 12%nat ->
  (forall x, In x sens -> 0 <= x)%Q -> (forall x, In x tbo -> 0 <= x)%Q -> (0 <= ci)%Q -> (0 <= co)%Q ->
  weights_calculation sym std ipo sw oopo ci co sens tbo = Ok (Some w, ini) ->
  (length ini = 12%nat /\ (forall i, 0 <= nth i ini 0)%Q /\ (sumQ ini == 1)%Q /\
   forall i j, nth i ini 0 * (nth j sens 0 * nth j tbo 0) == nth j ini 0 * (nth i sens 0 * nth i tbo 0))%Q /\
  (length w = 12%nat /\ (forall i, 0 <= nth i w 0)%Q /\ (sumQ w == 1)%Q) /\
  exists k, (0 < k)%Q /\
    (forall i, ~ lay_off sym std ipo oopo i -> ~ overwritten std ipo sw oopo i -> nth i w 0 == k * nth i ini 0)%Q /\
    (forall i, lay_off sym std ipo oopo i -> ~ ipo_penalty std ipo sw i -> ~ oopo_penalty std oopo i -> nth i w 0 == 0)%Q /\
    (forall i used, NoDup used -> (forall j, In j used <-> lay_in_use sym std ipo oopo ini j) ->
       let mean := (sumQ (map (fun j => nth j ini 0%Q) used) / inject_Z (zlen used))%Q in
       (ipo_penalty std ipo sw i -> nth i w 0 == k * (ci * mean))%Q /\
       (oopo_penalty std oopo i -> nth i w 0 == k * (co * mean))%Q).
Proof.
  intros sym std ipo sw oopo ci co sens tbo w ini Ls Lt Ns Nt Nci Nco H.
  destruct (weights_steps sym std ipo sw oopo ci co sens tbo Ls Lt Ns Nt Nci Nco) as [[E _]|[ini' [w1 [S0 [Li [L1 [Ni [Si [N1 R]]]]]]]]]; [congruence|].
  destruct R as [[_ E]|[m [w2 [Em [Pm [L2 [N2 [P2 E]]]]]]]]; [congruence|].
  rewrite E in H. injection H as H <-. unfold normalised in H. destruct (Qeq_bool (sumQ w2) 0) eqn:Z; [discriminate|]. injection H as <-.
  assert (S2 : (0 < sumQ w2)%Q).
  { pose proof (sumQ_nonneg w2 (list_nonneg w2 P2)) as A. apply Qle_lteq in A as [A|A]; auto. symmetry in A. apply Qeq_eq_bool in A. congruence. }
  split; [|split].
  - split; auto. split; [|split; auto].
    + intros i. rewrite Ni. apply Qle_shift_div_l; auto. rewrite Qmult_0_l. apply product_nonneg; auto.
    + intros i j. rewrite !Ni, !products_nth by lia. field. lra.
  - split; [rewrite map_length; auto|]. split.
    + intros i. rewrite nth_div. apply Qle_shift_div_l; auto. rewrite Qmult_0_l. auto.
    + rewrite PanelProofs.sumQ_scale. field. lra.
  - exists (/ sumQ w2)%Q. split; [apply Qinv_lt_0_compat; auto|]. split; [|split].
    + intros i O Ov. rewrite nth_div, N2. assert (V : penalty_value std ipo sw oopo ci co m w1 i = nth i ini' 0%Q).
      { assert (N1i : nth i w1 0%Q = nth i ini' 0%Q).
        { rewrite N1. destruct (lay_offb sym std ipo oopo i) eqn:B; auto. destruct O. apply lay_offb_spec; auto. }
        rewrite <- N1i. unfold penalty_value.
        destruct (ipo && sw && ((i =? 2)%nat || ((i =? 3)%nat && negb std)))%bool eqn:B1.
        { destruct O. apply lay_offb_spec. unfold lay_offb. destruct ipo; [|discriminate]. destruct (i =? 2)%nat, (i =? 3)%nat; rewrite ?orb_true_r; auto.
          destruct sw; discriminate. }
        destruct (oopo && _)%bool eqn:B2.
        { destruct O. apply lay_offb_spec. unfold lay_offb. destruct oopo; [|discriminate]. destruct (i =? 10)%nat, (i =? 11)%nat; rewrite ?orb_true_r; auto; discriminate. }
        destruct (ipo && sw && negb oopo && std && (i =? 10)%nat)%bool eqn:B3; auto.
        destruct Ov. rewrite !andb_true_iff, negb_true_iff, Nat.eqb_eq in B3. unfold overwritten. tauto. }
      rewrite V. unfold Qdiv. ring.
    + intros i O I1 I2. rewrite nth_div, N2. assert (V : (penalty_value std ipo sw oopo ci co m w1 i == 0)%Q).
      { unfold penalty_value.
        destruct (ipo && sw && ((i =? 2)%nat || ((i =? 3)%nat && negb std)))%bool eqn:B1.
        { destruct I1. rewrite !andb_true_iff, orb_true_iff, andb_true_iff, negb_true_iff, !Nat.eqb_eq in B1. unfold ipo_penalty. tauto. }
        destruct (oopo && _)%bool eqn:B2.
        { destruct I2. rewrite !andb_true_iff, orb_true_iff, andb_true_iff, negb_true_iff, !Nat.eqb_eq in B2. unfold oopo_penalty. tauto. }
        destruct (ipo && sw && negb oopo && std && (i =? 10)%nat)%bool eqn:B3.
        { exfalso. rewrite !andb_true_iff, negb_true_iff, Nat.eqb_eq in B3. destruct B3 as [[[[-> _] ->] ->] ->]. unfold lay_off in O. lia. }
        rewrite N1. apply lay_offb_spec in O. rewrite O. reflexivity. }
      rewrite V. unfold Qdiv. ring.
    + intros i used ND U. pose proof (lay_used_perm sym std ipo oopo ini' w1 used L1 N1 ND U) as PM.
      assert (Mm : (m == sumQ (map (fun j => nth j ini' 0%Q) used) / inject_Z (zlen used))%Q).
      { unfold average in Em. assert (Em' : m = (sumQ (non_zero w1) / inject_Z (zlen (non_zero w1)))%Q) by (destruct (non_zero w1); [discriminate|congruence]).
        rewrite Em'. replace (zlen used) with (zlen (non_zero w1)) by (unfold zlen; rewrite (Permutation_length PM), map_length; auto).
        rewrite (Properties_panel.perm_sumQ _ _ PM). reflexivity. }
      cbv zeta. rewrite <- Mm. clear Mm PM. split; intros I; rewrite nth_div, N2; unfold penalty_value.
      * destruct I as [-> [-> I]]. replace (true && true && ((i =? 2)%nat || ((i =? 3)%nat && negb std)))%bool with true; [unfold Qdiv; ring|].
        destruct I as [->|[-> ->]]; reflexivity.
      * destruct I as [-> I].
        replace (ipo && sw && ((i =? 2)%nat || ((i =? 3)%nat && negb std)))%bool with false by (destruct I as [->|[-> _]]; cbn; rewrite andb_false_r; reflexivity).
        replace (true && ((i =? 10)%nat || ((i =? 11)%nat && negb std)))%bool with true by (destruct I as [->|[-> ->]]; reflexivity).
        unfold Qdiv. ring.
Qed.
Print Assumptions C76_weightings_partial.

(** an error exactly when the weightings of the user are all zero; a number as soon as a weighting
    is in use that is not overwritten; otherwise NaN when none is in use *)
Theorem C76_defined : forall (sym std ipo sw oopo : bool) ci co sens tbo,
  length sens = 12%nat -> length tbo = 12%nat ->
  (forall x, In x sens -> 0 <= x)%Q -> (forall x, In x tbo -> 0 <= x)%Q -> (0 <= ci)%Q -> (0 <= co)%Q ->
  let user := products sens tbo in
  let r := weights_calculation sym std ipo sw oopo ci co sens tbo in
  ((forall i, (i < 12)%nat -> nth i sens 0 * nth i tbo 0 == 0)%Q <-> r = Err (Raised BadDefinition)) /\
  (forall i, lay_in_use sym std ipo oopo user i -> ~ overwritten std ipo sw oopo i -> exists w ini, r = Ok (Some w, ini)) /\
  ((forall i, ~ lay_in_use sym std ipo oopo user i) -> (exists i, (i < 12)%nat /\ ~ nth i sens 0 * nth i tbo 0 == 0)%Q -> exists ini, r = Ok (None, ini)).
Proof.
  intros sym std ipo sw oopo ci co sens tbo Ls Lt Ns Nt Nci Nco user r.
  assert (Lu : length user = 12%nat) by (unfold user; rewrite products_length; lia).
  assert (Pn : forall i, (0 <= nth i user 0)%Q) by (intros; apply product_nonneg; auto).
  assert (Z : (sumQ user == 0 <-> forall i, (i < 12)%nat -> nth i sens 0 * nth i tbo 0 == 0)%Q).
  { split; intros H.
    - intros i Hi. rewrite <- (products_nth sens tbo) by lia. fold user. specialize (Pn i).
      apply Qle_lteq in Pn as [A|A]; [|symmetry; auto]. exfalso.
      assert (Q0 : (0 < sumQ user)%Q) by (apply sumQ_pos with (nth i user 0%Q); auto; [apply list_nonneg; intros; apply product_nonneg; auto | apply nth_In; lia]). rewrite H in Q0. exact (Qlt_irrefl _ Q0).
    - apply sumQ_zero. intros x Hx. apply (In_nth _ _ 0%Q) in Hx as [i [Hi Ei]]. subst x. unfold user. rewrite products_nth by lia. apply H. lia. }
  destruct (weights_steps sym std ipo sw oopo ci co sens tbo Ls Lt Ns Nt Nci Nco) as [[E S0]|[ini [w1 [S0 [Li [L1 [Ni [Si [N1 R]]]]]]]]].
  - fold r in E. fold user in S0. assert (A0 := proj1 Z S0). split; [tauto|]. split.
    + intros i [Hi [_ U]] _. exfalso. apply U. unfold user. rewrite products_nth by lia. apply A0; auto.
    + intros _ [i [Hi U]]. exfalso. apply U, A0; auto.
  - fold user in S0. fold r in R. split; [|split].
    + split; intros H; [apply Z in H; lra|]. destruct R as [[_ E]|[m [w2 [_ [_ [_ [_ [_ E]]]]]]]]; congruence.
    + intros i [Hi [O U]] Ov.
      assert (Pi : (0 < nth i ini 0)%Q).
      { rewrite Ni. fold user. apply Qlt_shift_div_l; auto. rewrite Qmult_0_l. specialize (Pn i). apply Qle_lteq in Pn as [A|A]; auto. destruct U. symmetry; auto. }
      assert (W1 : nth i w1 0%Q = nth i ini 0%Q).
      { rewrite N1. destruct (lay_offb sym std ipo oopo i) eqn:B; auto. destruct O. apply lay_offb_spec; auto. }
      destruct R as [[En _]|[m [w2 [_ [_ [L2 [N2 [P2 E]]]]]]]].
      { exfalso. assert (I : In (nth i w1 0%Q) (non_zero w1)).
        { apply in_non_zero. split; [apply nth_In; lia|]. rewrite W1. lra. }
        rewrite En in I. destruct I. }
      assert (W2 : nth i w2 0%Q = nth i ini 0%Q).
      { rewrite N2. unfold penalty_value.
        destruct (ipo && sw && ((i =? 2)%nat || ((i =? 3)%nat && negb std)))%bool eqn:B1.
        { destruct O. apply lay_offb_spec. unfold lay_offb. destruct ipo; [|discriminate]. destruct (i =? 2)%nat, (i =? 3)%nat; rewrite ?orb_true_r; auto.
          destruct sw; discriminate. }
        destruct (oopo && _)%bool eqn:B2.
        { destruct O. apply lay_offb_spec. unfold lay_offb. destruct oopo; [|discriminate]. destruct (i =? 10)%nat, (i =? 11)%nat; rewrite ?orb_true_r; auto; discriminate. }
        destruct (ipo && sw && negb oopo && std && (i =? 10)%nat)%bool eqn:B3; auto.
        destruct Ov. rewrite !andb_true_iff, negb_true_iff, Nat.eqb_eq in B3. unfold overwritten. tauto. }
      rewrite E. destruct (normalised_spec w2 (list_nonneg w2 P2) (nth i w2 0%Q)) as [_ ->]; [apply nth_In; lia | rewrite W2; auto | eauto].
    + intros U _. destruct R as [[_ E]|[m [w2 [Em _]]]]; [eauto|]. exfalso.
      destruct (non_zero w1) as [|x nz] eqn:En; [discriminate|].
      assert (I : In x (non_zero w1)) by (rewrite En; left; auto). apply in_non_zero in I as [I X]. apply (In_nth _ _ 0%Q) in I as [i [Hi Ei]].
      apply (U i). split; [lia|]. subst x. rewrite N1 in X. destruct (lay_offb sym std ipo oopo i) eqn:B; [destruct X; reflexivity|].
      split; [rewrite lay_offb_spec; congruence|]. intros Z0. apply X. rewrite Ni. fold user. rewrite Z0. unfold Qdiv. ring.
Qed.
Print Assumptions C76_defined.

(** refuted: in-plane orthotropy by penalty with the standard angles, no requirement on the
    out-of-plane orthotropy: the weighting of component 10 chosen by the user is lost *)
Theorem C76_user_weighting_lost_refuted : ~ (forall (sym std ipo sw : bool) ci sens tbo w ini,
  length sens = 12%nat -> length tbo = 12%nat -> (forall x, In x sens -> 0 <= x)%Q -> (forall x, In x tbo -> 0 <= x)%Q -> (0 <= ci)%Q ->
  weights_calculation sym std ipo sw false ci 0 sens tbo = Ok (Some w, ini) ->
  (0 < nth 10 ini 0)%Q -> (0 < nth 10 w 0)%Q).
Proof.
  intros H.
  eassert (E : weights_calculation true true true true false 1 0 (repeat 1%Q 12) (repeat 1%Q 12) = Ok (Some _, _)) by (vm_compute; reflexivity).
  assert (P : forall x, In x (repeat 1%Q 12) -> (0 <= x)%Q) by (intros x Hx; apply repeat_spec in Hx; subst x; lra).
  pose proof (H true true true true 1%Q (repeat 1%Q 12) (repeat 1%Q 12) _ _ eq_refl eq_refl P P ltac:(lra) E ltac:(vm_compute; reflexivity)) as A.
  vm_compute in A. discriminate.
Qed.
Print Assumptions C76_user_weighting_lost_refuted.

(** refuted: a positive user weighting on a component that the guidelines switch off gives NaN *)
Theorem C76_always_a_number_refuted : ~ (forall (sym std ipo sw oopo : bool) ci co sens tbo,
  length sens = 12%nat -> length tbo = 12%nat -> (forall x, In x sens -> 0 <= x)%Q -> (forall x, In x tbo -> 0 <= x)%Q -> (0 <= ci)%Q -> (0 <= co)%Q ->
  (0 < sumQ (products sens tbo))%Q -> exists w ini, weights_calculation sym std ipo sw oopo ci co sens tbo = Ok (Some w, ini)).
Proof.
  intros H. pose (l := [0; 0; 0; 0; 1; 0; 0; 0; 0; 0; 0; 0]%Q).
  assert (P : forall x, In x l -> (0 <= x)%Q) by (intros x Hx; unfold l in Hx; cbn in Hx; repeat (destruct Hx as [<-|Hx]; [lra|]); destruct Hx).
  destruct (H true false false false false 1%Q 1%Q l l eq_refl eq_refl P P ltac:(lra) ltac:(lra) ltac:(vm_compute; reflexivity)) as [w [ini E]].
  vm_compute in E. discriminate.
Qed.
Print Assumptions C76_always_a_number_refuted.

Example C76_example : exists w ini,
  weights_calculation true false true true true 1 (1 # 2) (repeat 1%Q 12) (repeat 1%Q 12) = Ok (Some w, ini) /\
  lay_in_use true false true true ini 0 /\ ipo_penalty false true true 3 /\ oopo_penalty false true 11.
Proof.
  do 2 eexists. split; [vm_compute; reflexivity|]. split; [|split; [unfold ipo_penalty | unfold oopo_penalty]; repeat split; auto].
  split; [lia|]. split; [unfold lay_off; lia|]. cbn. intros A. vm_compute in A. discriminate.
Qed.

(* ------------------------------------------------------------------ *)
(** ** C77 *)

Lemma bind_inv {A B} (x : result A) (f : A -> result B) r : bind x f = Ok r -> exists a, x = Ok a /\ f a = Ok r.
Proof. destruct x; cbn; [eauto|discriminate]. Qed.
Lemma guard_inv b e u : guard b e = Ok u -> b = false.
Proof. destruct b; [discriminate|auto]. Qed.

Lemma nanargmin_spec : forall l best i q j,
  (forall b k, best = Some (b, k) -> (k < i)%nat) ->
  nanargmin_from best i l = Some (q, j) ->
  ((best = Some (q, j) /\ forall k p, nth_error l k = Some (Some p) -> (q <= p)%Q) \/
   ((i <= j)%nat /\ nth_error l (j - i) = Some (Some q) /\ (forall b k, best = Some (b, k) -> (q < b)%Q) /\
    (forall k p, nth_error l k = Some (Some p) -> (q <= p)%Q) /\
    (forall k p, (k < j - i)%nat -> nth_error l k = Some (Some p) -> (q < p)%Q))).
Proof.
  induction l as [|x l IH]; intros best i q j Hb E; cbn [nanargmin_from] in E.
  - left. split; auto. intros [|k] p H; discriminate H.
  - destruct x as [x|].
    + assert (Keep : forall b0 k0, best = Some (b0, k0) -> (b0 <= x)%Q -> nanargmin_from best (S i) l = Some (q, j) ->
        (best = Some (q, j) /\ forall k p, nth_error (Some x :: l) k = Some (Some p) -> (q <= p)%Q) \/
        ((i <= j)%nat /\ nth_error (Some x :: l) (j - i) = Some (Some q) /\ (forall b k, best = Some (b, k) -> (q < b)%Q) /\
         (forall k p, nth_error (Some x :: l) k = Some (Some p) -> (q <= p)%Q) /\
         (forall k p, (k < j - i)%nat -> nth_error (Some x :: l) k = Some (Some p) -> (q < p)%Q))).
      { intros b0 k0 Eb Lb E'. destruct (IH best (S i) q j) as [[A B]|[A [B [C [D F]]]]]; auto.
        { intros b k H. specialize (Hb b k H). lia. }
        - left. split; auto. intros [|k] p H; cbn in H; [|eauto]. injection H as <-. congruence.
        - right. specialize (C b0 k0 Eb) as C'. split; [lia|]. replace (j - i)%nat with (S (j - S i)) by lia. split; auto. split; auto. split.
          + intros [|k] p H; cbn in H; [|eauto]. injection H as <-. lra.
          + intros [|k] p Hk H; cbn in H; [injection H as <-; lra|]. apply (F k p); auto. lia. }
      assert (New : (forall b k, best = Some (b, k) -> (x < b)%Q) -> nanargmin_from (Some (x, i)) (S i) l = Some (q, j) ->
        (i <= j)%nat /\ nth_error (Some x :: l) (j - i) = Some (Some q) /\ (forall b k, best = Some (b, k) -> (q < b)%Q) /\
         (forall k p, nth_error (Some x :: l) k = Some (Some p) -> (q <= p)%Q) /\
         (forall k p, (k < j - i)%nat -> nth_error (Some x :: l) k = Some (Some p) -> (q < p)%Q)).
      { intros Lb E'. destruct (IH (Some (x, i)) (S i) q j) as [[A B]|[A [B [C [D F]]]]]; auto.
        { intros b k H. injection H as _ <-. lia. }
        - injection A as <- <-. split; [lia|]. rewrite Nat.sub_diag. split; auto. split; auto. split; [|intros; lia].
          intros [|k] p H; cbn in H; [injection H as <-; apply Qle_refl|eauto].
        - specialize (C x i eq_refl). split; [lia|]. replace (j - i)%nat with (S (j - S i)) by lia. split; auto. split.
          + intros b k H. specialize (Lb b k H). lra.
          + split.
            * intros [|k] p H; cbn in H; [injection H as <-; lra|eauto].
            * intros [|k] p Hk H; cbn in H; [injection H as <-; lra|]. apply (F k p); auto. lia. }
      destruct best as [[b k]|].
      * destruct (Qltb x b) eqn:T.
        -- right. apply New; auto. intros b' k' H. injection H as <- _. apply Qltb_true; auto.
        -- apply (Keep b k); auto. apply Qltb_false; auto.
      * right. apply New; auto. discriminate.
    + destruct (IH best (S i) q j) as [[A B]|[A [B [C [D F]]]]]; auto.
      { intros b k H. specialize (Hb b k H). lia. }
      * left. split; auto. intros [|k] p H; cbn in H; [discriminate|eauto].
      * right. split; [lia|]. replace (j - i)%nat with (S (j - S i)) by lia. split; auto. split; auto. split.
        -- intros [|k] p H; cbn in H; [discriminate|eauto].
        -- intros [|k] p Hk H; cbn in H; [discriminate|]. apply (F k p); auto. lia.
Qed.

Lemma nanargmin_none : forall l i, nanargmin_from None i l = None <-> forall x, In x l -> x = None.
Proof.
  assert (G : forall l b i, nanargmin_from (Some b) i l <> None).
  { induction l as [|[x|] l IH]; intros [b k] i; cbn [nanargmin_from]; [discriminate| |auto].
    destruct (Qltb x b); auto. }
  induction l as [|[x|] l IH]; intros i; cbn [nanargmin_from].
  - split; [intros _ x []|auto].
  - split; [intros H; destruct (G _ _ _ H)|]. intros H. specialize (H _ (or_introl eq_refl)). discriminate.
  - rewrite IH. split; intros H x; [intros [<-|I]; auto|]. intros I. apply H. right; auto.
Qed.

Section OuterProofs.
Variable search : nat -> list Z -> list (list nat) -> list lampam -> result outer.
Variable lampam_of : list Z -> list Q.
Variable gate : list Z -> result unit.
Variables (sym : bool) (angles : list Z) (cos_sin : Z -> nat -> Q) (gmin : Z) (gmax : list Z) (n : nat) (n_outer : nat).

(** the partition and the assumptions of outer step k, after the previous stack *)
Definition step_input (k : nat) (previous : option (list Z)) (sizes : list Z) (levels : list (list nat)) (assumed : list lampam) : Prop :=
  (exists p g, divide_laminate sym gmin gmax (Z.of_nat k) (Z.of_nat n) = Ok (sizes, p, g)) /\
  calc_levels (ply_order sym n) sizes = Ok levels /\
  match previous with
  | None => assumed = map (fun _ => lampam_zero) sizes
  | Some ss => lampam_assumed angles (partial_lampams sym cos_sin n) ss levels = Ok assumed
  end.
Definition previous_stack (outs : list outer) (k : nat) : option (list Z) :=
  match k with O => None | S j => option_map o_ss (nth_error outs j) end.
Definition step_ok (outs : list outer) (k : nat) (o : outer) : Prop :=
  (exists sizes levels assumed, step_input k (previous_stack outs k) sizes levels assumed /\ search k sizes levels assumed = Ok o) /\
  gate (o_ss o) = Ok tt /\ length (o_ss o) = n /\ (distance (o_lampam o) (lampam_of (o_ss o)) <= 1 # 10000000000)%Q.
(** step k ends the loop *)
Definition stops (outs : list outer) (k : nat) (o : outer) : Prop :=
  (exists q, o_obj o = Some q /\ (q < 1 # 10000000000)%Q) \/ previous_stack outs k = Some (o_ss o).

Lemma previous_app outs more k : (k <= length outs)%nat -> previous_stack (outs ++ more) k = previous_stack outs k.
Proof. destruct k; auto. intros H. cbn. rewrite nth_error_app1 by lia. reflexivity. Qed.

Lemma divide_same k l : get gmax (Z.of_nat k) = get gmax (Z.of_nat l) ->
  divide_laminate sym gmin gmax (Z.of_nat k) (Z.of_nat n) = divide_laminate sym gmin gmax (Z.of_nat l) (Z.of_nat n).
Proof. intros H. unfold divide_laminate. rewrite H. reflexivity. Qed.

Lemma last_nth_error {A} (l : list A) d : l <> [] -> nth_error l (length l - 1) = Some (last l d).
Proof.
  intros H. destruct (exists_last H) as [m [x ->]]. rewrite app_length, last_last. cbn [length].
  replace (length m + 1 - 1)%nat with (length m) by lia. rewrite nth_error_app2, Nat.sub_diag by lia. reflexivity.
Qed.

Lemma outer_loop_spec : forall k step sizes levels assumed tab outs,
  length tab = step -> (step + k = n_outer)%nat ->
  (forall i o, nth_error tab i = Some o -> step_ok tab i o /\ ~ stops tab i o) ->
  ((0 < k)%nat -> step_input step (previous_stack tab step) sizes levels assumed) ->
  outer_loop search lampam_of gate sym angles cos_sin gmin gmax n n_outer k step sizes levels assumed tab = Ok outs ->
  (length tab <= length outs <= n_outer)%nat /\ ((0 < k)%nat -> (length tab < length outs)%nat) /\
  (forall i o, nth_error outs i = Some o -> step_ok outs i o /\ ((S i < length outs)%nat -> ~ stops outs i o)) /\
  ((length outs < n_outer)%nat -> exists o, nth_error outs (length outs - 1) = Some o /\ stops outs (length outs - 1) o).
Proof.
  induction k as [|k IH]; intros step sizes levels assumed tab outs Lt Hk Ht Hi E; cbn [outer_loop] in E.
  - injection E as <-. split; [lia|]. split; [lia|]. split; [|intros; lia]. intros i o H. destruct (Ht i o H). auto.
  - apply bind_inv in E as [o [Es E]]. apply bind_inv in E as [[] [Eg E]].
    apply bind_inv in E as [u [Ed E]]. apply guard_inv, Qltb_false in Ed.
    apply bind_inv in E as [u' [El E]]. apply guard_inv, negb_false_iff, Nat.eqb_eq in El.
    assert (Sok : forall more, step_ok ((tab ++ [o]) ++ more) step o).
    { intros more. split; [|auto]. exists sizes, levels, assumed. split; auto. rewrite previous_app by (rewrite app_length; cbn; lia).
      rewrite previous_app by lia. apply Hi. lia. }
    assert (Old : forall more i p, nth_error tab i = Some p -> step_ok (tab ++ more) i p /\ ~ stops (tab ++ more) i p).
    { intros more i p H. assert (Li : (i < length tab)%nat) by (apply nth_error_Some; congruence). destruct (Ht i p H) as [A B].
      unfold step_ok, stops in *. rewrite previous_app by lia. auto. }
    assert (Again : (match tab with [] => false | _ => same_stack (o_ss o) (o_ss (last tab o)) end) = true <-> previous_stack tab step = Some (o_ss o)).
    { unfold same_stack. destruct tab as [|t0 tab'] eqn:Etab.
      - cbn in Lt. subst step. split; discriminate.
      - rewrite <- Etab in *. assert (Ne : tab <> []) by (rewrite Etab; discriminate).
        destruct step as [|s]; [subst tab; cbn in Lt; lia|]. cbn [previous_stack].
        replace s with (length tab - 1)%nat by lia. rewrite (last_nth_error tab o Ne). cbn [option_map].
        destruct (list_eq_dec Z.eq_dec (o_ss o) (o_ss (last tab o))) as [e|e]; split; intros H; try congruence; auto. }
    assert (Stop : stops (tab ++ [o]) step o <-> ((match tab with [] => false | _ => same_stack (o_ss o) (o_ss (last tab o)) end) || small (o_obj o))%bool = true).
    { unfold stops. rewrite orb_true_iff, Again, previous_app by lia. unfold small. destruct (o_obj o) as [q|].
      - rewrite Qltb_true. split; [intros [[q' [A B]]|A]; [injection A as <-|]; auto|]. intros [A|A]; eauto.
      - split; [intros [[q' [A B]]|A]; [discriminate|auto]|]. intros [A|A]; [auto|discriminate]. }
    destruct (_ || small (o_obj o))%bool eqn:B.
    + injection E as <-. rewrite app_length. cbn [length]. split; [lia|]. split; [lia|].
      assert (Nl : nth_error (tab ++ [o]) (length tab + 1 - 1) = Some o).
      { replace (length tab + 1 - 1)%nat with (length tab) by lia. rewrite nth_error_app2, Nat.sub_diag by lia. reflexivity. }
      split.
      * intros i p H. destruct (Nat.lt_ge_cases i (length tab)) as [Li|Li].
        -- rewrite nth_error_app1 in H by auto. destruct (Old [o] i p H) as [A1 A2]. split; auto.
        -- assert (Hi' : i = length tab).
           { assert (i < length (tab ++ [o]))%nat by (apply nth_error_Some; congruence). rewrite app_length in H0. cbn in H0. lia. }
           subst i. replace (length tab + 1 - 1)%nat with (length tab) in Nl by lia. rewrite Nl in H. injection H as <-.
           specialize (Sok []). rewrite app_nil_r in Sok. rewrite Lt. split; auto. intros; lia.
      * intros _. exists o. split; auto. replace (length tab + 1 - 1)%nat with step by lia. apply Stop; auto.
    + apply bind_inv in E as [[sizes' levels'] [Er E]]. apply bind_inv in E as [assumed' [Ea E]]. cbn [fst snd] in *.
      assert (Npr : previous_stack (tab ++ [o]) (S step) = Some (o_ss o)).
      { cbn [previous_stack]. rewrite nth_error_app2 by lia. rewrite Lt, Nat.sub_diag. reflexivity. }
      destruct (IH (S step) sizes' levels' assumed' (tab ++ [o]) outs) as [L [P [Q1 Q2]]]; auto.
      * rewrite app_length. cbn. lia.
      * lia.
      * intros i p H. destruct (Nat.lt_ge_cases i (length tab)) as [Li|Li].
        -- rewrite nth_error_app1 in H by auto. apply Old; auto.
        -- assert (Hi' : i = length tab).
           { assert (i < length (tab ++ [o]))%nat by (apply nth_error_Some; congruence). rewrite app_length in H0. cbn in H0. lia. }
           subst i. rewrite nth_error_app2, Nat.sub_diag in H by lia. injection H as <-.
           specialize (Sok []). rewrite app_nil_r in Sok. rewrite Lt. split; auto. rewrite Stop. discriminate.
      * intros Pk. rewrite Npr. unfold repartition in Er. destruct (Nat.eqb_spec (S step) n_outer); [lia|].
        apply bind_inv in Er as [a [Ga Er]]. apply bind_inv in Er as [b [Gb Er]].
        destruct (Hi ltac:(lia)) as [[p [g Dv]] [Lv _]].
        destruct (Z.eqb_spec a b) as [->|Nab].
        -- injection Er as <- <-. split; [|split; auto]. exists p, g. rewrite <- Dv. apply divide_same. congruence.
        -- apply bind_inv in Er as [[[sz pp] gg] [Dv' Er]]. apply bind_inv in Er as [mm [_ Er]].
           apply bind_inv in Er as [lv [Lv' Er]]. injection Er as <- <-. split; [eauto|]. split; auto.
      * rewrite app_length in L, P. cbn [length] in L, P. split; [lia|]. split; [lia|]. auto.
Qed.
End OuterProofs.

(** The returned laminate is the output of one of the outer steps that were performed: the first
    with the smallest objective. Every output satisfies the lay-up guidelines, has the required
    number of plies and the lamination parameters reported for it. Step k divides the laminate
    with the k-th maximum group size, and starts from the groups of the previous stack. The loop
    ends early exactly when a stack has an objective below 1e-10 or is the previous stack *)
Theorem C77_result : forall search lampam_of gate sym angles cos_sin gmin gmax n n_outer r,
  layla_optimiser search lampam_of gate sym angles cos_sin gmin gmax n n_outer = Ok r ->
  exists outs,
    length outs = r_steps r /\ (1 <= r_steps r <= n_outer)%nat /\
    (forall i o, nth_error outs i = Some o ->
       step_ok search lampam_of gate sym angles cos_sin gmin gmax n outs i o /\ ((S i < length outs)%nat -> ~ stops outs i o)) /\
    ((r_steps r < n_outer)%nat -> exists o, nth_error outs (r_steps r - 1) = Some o /\ stops outs (r_steps r - 1) o) /\
    (1 <= r_best_step r <= r_steps r)%nat /\
    nth_error outs (r_best_step r - 1) = Some {| o_ss := r_ss r; o_lampam := r_lampam r; o_obj := Some (r_obj r) |} /\
    (forall i o q, nth_error outs i = Some o -> o_obj o = Some q ->
       (r_obj r <= q)%Q /\ ((i < r_best_step r - 1)%nat -> (r_obj r < q)%Q)).
Proof.
  intros search lampam_of gate sym angles cs gmin gmax n n_outer r H. unfold layla_optimiser in H.
  apply bind_inv in H as [[[sizes p] g] [Dv H]]. apply bind_inv in H as [levels [Lv H]]. apply bind_inv in H as [mm [_ H]].
  apply bind_inv in H as [outs [Eo H]].
  destruct (outer_loop_spec search lampam_of gate sym angles cs gmin gmax n n_outer n_outer 0 sizes levels (map (fun _ => lampam_zero) sizes) [] outs) as [L [P [Q1 Q2]]]; auto.
  { intros i o Hi. destruct i; discriminate. }
  { intros _. split; [eauto|]. split; auto. reflexivity. }
  destruct (nanargmin_from None 0 (map o_obj outs)) as [[q i]|] eqn:En; [|discriminate].
  destruct (nth_error outs i) as [o|] eqn:Ei; [|discriminate]. injection H as <-. cbn [r_steps r_best_step r_ss r_lampam r_obj].
  destruct (nanargmin_spec (map o_obj outs) None 0 q i ltac:(intros; discriminate) En) as [[A _]|[_ [B [_ [C D]]]]]; [discriminate|].
  rewrite Nat.sub_0_r in B, D. rewrite nth_error_map, Ei in B. cbn in B. injection B as B.
  assert (Li : (i < length outs)%nat) by (apply nth_error_Some; congruence).
  exists outs. split; auto. split; [split; [lia | lia]|]. split; auto. split; auto. split; [lia|].
  replace (i + 1 - 1)%nat with i by lia. split; [rewrite Ei, <- B; destruct o; reflexivity|].
  intros k o' q' Ek Eq'. assert (Em : nth_error (map o_obj outs) k = Some (Some q')) by (rewrite nth_error_map, Ek; cbn; congruence).
  split; [apply (C k); auto|]. intros Hk. apply (D k); auto.
Qed.
Print Assumptions C77_result.

Lemma n_half_alt n : n_half n = ((n + 1) / 2)%nat.
Proof.
  unfold n_half. pose proof (Nat.div_mod n 2 ltac:(lia)). pose proof (Nat.mod_upper_bound n 2 ltac:(lia)).
  pose proof (Nat.div_mod (n + 1) 2 ltac:(lia)). pose proof (Nat.mod_upper_bound (n + 1) 2 ltac:(lia)). lia.
Qed.

(** in particular: the stack that is returned satisfies the guidelines and has n plies *)
Theorem C77_feasible : forall search lampam_of gate sym angles cos_sin gmin gmax n n_outer r,
  layla_optimiser search lampam_of gate sym angles cos_sin gmin gmax n n_outer = Ok r ->
  gate (r_ss r) = Ok tt /\ length (r_ss r) = n /\ (distance (r_lampam r) (lampam_of (r_ss r)) <= 1 # 10000000000)%Q.
Proof.
  intros search lampam_of gate sym angles cs gmin gmax n n_outer r H.
  destruct (C77_result _ _ _ _ _ _ _ _ _ _ _ H) as [outs [_ [_ [S1 [_ [_ [B _]]]]]]].
  destruct (S1 _ _ B) as [[_ A] _]. exact A.
Qed.
Print Assumptions C77_feasible.

(** a design is returned when the laminate can be divided at every step, the searches return
    feasible stacks of the allowed angles and consistent lamination parameters, and the objective
    of one performed step is a number (here: of the first) *)
Theorem C77_no_exception : forall search lampam_of gate (sym : bool) angles cos_sin gmin gmax n n_outer,
  (1 <= n_outer)%nat -> (1 <= n)%nat ->
  (forall k, (k < n_outer)%nat -> exists gm, get gmax (Z.of_nat k) = Ok gm /\ 1 <= gmin <= gm /\
     exists l0, l0 <> [] /\ (forall x, In x l0 -> gmin <= x <= gm) /\ sumZ l0 = if sym then Z.of_nat n / 2 else Z.of_nat n) ->
  (forall k sizes levels assumed, exists o, search k sizes levels assumed = Ok o /\
     gate (o_ss o) = Ok tt /\ length (o_ss o) = n /\ (forall a, In a (o_ss o) -> In a angles) /\
     (distance (o_lampam o) (lampam_of (o_ss o)) <= 1 # 10000000000)%Q /\ (k = 0%nat -> o_obj o <> None)) ->
  exists r, layla_optimiser search lampam_of gate sym angles cos_sin gmin gmax n n_outer = Ok r.
Proof.
  intros search lampam_of gate sym angles cs gmin gmax n n_outer Ho Hn Hg Hs.
  assert (Dv : forall k, (k < n_outer)%nat -> exists sizes p g levels mm,
    divide_laminate sym gmin gmax (Z.of_nat k) (Z.of_nat n) = Ok (sizes, p, g) /\ calc_levels (ply_order sym n) sizes = Ok levels /\
    calc_mom_of_areas sym n sizes = Ok mm /\ (forall l, In l (concat levels) -> (l < length (ply_order sym n))%nat)).
  { intros k Hk. destruct (Hg k Hk) as [gm [G1 [G2 G3]]].
    destruct (C71_division_partial sym gmin gmax (Z.of_nat k) (Z.of_nat n) gm G1 G2 ltac:(lia) G3) as [sz [x [p [E [B [Bx [Su _]]]]]]].
    destruct (C72_levels_of_division sym gmin gmax (Z.of_nat k) n _ _ _ gm G1 G2 E) as [levels [El [Ml [_ Pl]]]].
    assert (M0 : 0 <= if sym then Z.of_nat n mod 2 else 0) by (destruct sym; [apply Z.mod_pos_bound|]; lia).
    assert (Lp : length (ply_order sym n) = if sym then ((n + 1) / 2)%nat else n).
    { destruct sym; [unfold ply_order; rewrite seq_length; apply n_half_alt|]. rewrite (Permutation_length (ply_order_perm n)), seq_length. reflexivity. }
    assert (Sz : sumZ (sz ++ [x]) = zlen (ply_order sym n)).
    { unfold zlen. rewrite Lp. replace (if sym then ((n + 1) / 2)%nat else n) with (length (concat levels)) by (rewrite (Permutation_length Pl), seq_length; auto).
      rewrite <- Ml. clear. induction levels as [|l ls IH]; [reflexivity|]. cbn [map concat]. rewrite sumZ_cons, app_length, IH. unfold zlen. lia. }
    destruct (C73_moments sym n (sz ++ [x]) Hn) as [lv' [rows [cum [grp [_ [Em _]]]]]]; auto.
    { intros y Hy. apply in_app_or in Hy as [Hy|[<-|[]]]; [apply B in Hy|]; lia. }
    exists (sz ++ [x]), p, (zlen sz + 1), levels, (rows, cum, grp). repeat split; auto.
    intros l Hl. apply (Permutation_in _ Pl), in_seq in Hl. lia. }
  assert (As : forall ss levels, length ss = n -> (forall a, In a ss -> In a angles) -> (forall l, In l (concat levels) -> (l < length (ply_order sym n))%nat) ->
    exists tab, lampam_assumed angles (partial_lampams sym cs n) ss levels = Ok tab).
  { intros ss levels Ls Ha. assert (Lr : length (partial_lampams sym cs n) = length (ply_order sym n)).
    { unfold partial_lampams, ply_moments. destruct sym; rewrite !map_length; unfold ply_order; [rewrite !seq_length|]; reflexivity. }
    assert (Ln : (length (ply_order sym n) <= n)%nat).
    { destruct sym; [unfold ply_order; rewrite seq_length; pose proof (n_half_spec n); lia|].
      rewrite (Permutation_length (ply_order_perm n)), seq_length. lia. }
    unfold lampam_assumed. induction levels as [|l ls IH]; intros Hl; [exists []; reflexivity|].
    destruct (assumed_of_spec angles (partial_lampams sym cs n) ss Ha l lampam_zero) as [r [Er _]].
    { intros y Hy. assert (y < length (ply_order sym n))%nat by (apply Hl; cbn [concat]; apply in_or_app; auto). lia. }
    destruct IH as [tab Et]; [intros y Hy; apply Hl; cbn [concat]; apply in_or_app; auto|].
    exists (r :: tab). cbn [mapM]. rewrite Er. cbn [bind]. rewrite Et. reflexivity. }
  assert (Loop : forall k step sizes levels assumed tab, (step + k = n_outer)%nat -> (step = 0%nat -> tab = []) -> (tab = [] -> step = 0%nat /\ (0 < k)%nat) ->
    (forall l, In l (concat levels) -> (l < length (ply_order sym n))%nat) ->
    (tab <> [] -> exists o q, hd_error tab = Some o /\ o_obj o = Some q) ->
    exists outs, outer_loop search lampam_of gate sym angles cs gmin gmax n n_outer k step sizes levels assumed tab = Ok outs /\
      exists o q, hd_error outs = Some o /\ o_obj o = Some q).
  { induction k as [|k IH]; intros step sizes levels assumed tab Hk H0 H1 Hl Ht; cbn [outer_loop].
    - exists tab. split; auto. apply Ht. intros ->. destruct (H1 eq_refl). lia.
    - destruct (Hs step sizes levels assumed) as [o [Es [Eg [Lo [Ao [Do No]]]]]]. rewrite Es. cbn [bind]. rewrite Eg. cbn [bind].
      rewrite (proj2 (Qltb_false _ _) Do). cbn [guard bind]. rewrite Lo, Nat.eqb_refl. cbn [negb guard bind].
      assert (Hd : exists o' q, hd_error (tab ++ [o]) = Some o' /\ o_obj o' = Some q).
      { destruct tab as [|t tab]; [|cbn [app hd_error]; apply Ht; discriminate]. cbn [app hd_error]. exists o.
        destruct (H1 eq_refl) as [-> _]. specialize (No eq_refl). destruct (o_obj o) as [q|]; [|congruence]. eauto. }
      destruct (_ || small (o_obj o))%bool; [eauto|].
      assert (Rp : exists sl, repartition sym gmin gmax n n_outer step sizes levels = Ok sl /\ (forall l, In l (concat (snd sl)) -> (l < length (ply_order sym n))%nat)).
      { unfold repartition. destruct (Nat.eqb_spec (S step) n_outer); [exists (sizes, levels); auto|].
        destruct (Hg step ltac:(lia)) as [a [Ga _]]. destruct (Hg (S step) ltac:(lia)) as [b [Gb _]]. rewrite Ga, Gb. cbn [bind].
        destruct (a =? b); [exists (sizes, levels); auto|].
        destruct (Dv (S step) ltac:(lia)) as [sz [p [g [lv [mm [D1 [D2 [D3 D4]]]]]]]]. rewrite D1. cbn [bind]. rewrite D3. cbn [bind]. rewrite D2. cbn [bind].
        exists (sz, lv). auto. }
      destruct Rp as [[sz lv] [Er Hl']]. rewrite Er. cbn [bind fst snd] in *.
      destruct (As (o_ss o) lv Lo Ao Hl') as [as' Ea]. rewrite Ea. cbn [bind].
      apply IH; [lia | intros Hz; lia | intros Hz; destruct tab; discriminate | auto | auto]. }
  unfold layla_optimiser. destruct (Dv 0%nat ltac:(lia)) as [sz [p [g [lv [mm [D1 [D2 [D3 D4]]]]]]]].
  change (Z.of_nat 0) with 0 in D1. rewrite D1. cbn [bind]. rewrite D2. cbn [bind]. rewrite D3. cbn [bind].
  destruct (Loop n_outer 0%nat sz lv (map (fun _ => lampam_zero) sz) []) as [outs [Eo [o [q [Hh Hq]]]]]; auto; try congruence.
  rewrite Eo. cbn [bind]. destruct (nanargmin_from None 0 (map o_obj outs)) as [[q' i]|] eqn:En.
  - destruct (nanargmin_spec (map o_obj outs) None 0 q' i ltac:(intros; discriminate) En) as [[A _]|[_ [B _]]]; [discriminate|].
    rewrite Nat.sub_0_r, nth_error_map in B. destruct (nth_error outs i) as [o'|]; [eauto|discriminate].
  - exfalso. destruct outs as [|o' outs]; [discriminate|]. cbn in Hh. injection Hh as ->.
    pose proof (proj1 (nanargmin_none _ _) En (o_obj o) (or_introl eq_refl)). congruence.
Qed.
Print Assumptions C77_no_exception.

(** an exception when the objective of every step is NaN *)
Theorem C77_all_nan : forall search lampam_of gate sym angles cos_sin gmin gmax n n_outer,
  (forall k sizes levels assumed o, search k sizes levels assumed = Ok o -> o_obj o = None) ->
  exists e, layla_optimiser search lampam_of gate sym angles cos_sin gmin gmax n n_outer = Err e.
Proof.
  intros search lampam_of gate sym angles cs gmin gmax n n_outer H.
  destruct (layla_optimiser search lampam_of gate sym angles cs gmin gmax n n_outer) as [r|e] eqn:E; [|eauto]. exfalso.
  destruct (C77_result _ _ _ _ _ _ _ _ _ _ _ E) as [outs [_ [_ [S1 [_ [_ [B _]]]]]]].
  destruct (S1 _ _ B) as [[[sz [lv [a [_ Es]]]] _] _]. apply H in Es. discriminate.
Qed.
Print Assumptions C77_all_nan.

Example C77_example :
  let search := fun k (_ : list Z) (_ : list (list nat)) (_ : list lampam) =>
    Ok {| o_ss := nth k [[0; 90; 90; 0]; [90; 0; 0; 90]; [90; 0; 0; 90]] []; o_lampam := [1%Q]; o_obj := Some (inject_Z (3 - Z.of_nat k)) |} in
  match layla_optimiser search (fun _ => [1%Q]) (fun _ => Ok tt) true [0; 90] (fun a k => if a =? 90 then (-1)%Q else 1%Q) 1 [1; 2; 2; 2] 4 4 with
  | Ok r => r_ss r = [90; 0; 0; 90] /\ r_best_step r = 3%nat /\ r_steps r = 3%nat
  | Err _ => False
  end.
Proof. vm_compute. auto. Qed.

Example C77_no_exception_example :
  let search := fun (k : nat) (_ : list Z) (_ : list (list nat)) (_ : list lampam) =>
    Ok {| o_ss := [0; 90; 90; 0]; o_lampam := [1%Q]; o_obj := Some 1%Q |} in
  (forall k, (k < 3)%nat -> exists gm, get [1; 2; 2] (Z.of_nat k) = Ok gm /\ 1 <= 1 <= gm /\
     exists l0, l0 <> [] /\ (forall x, In x l0 -> 1 <= x <= gm) /\ sumZ l0 = Z.of_nat 4 / 2) /\
  (forall k sizes levels assumed, exists o, search k sizes levels assumed = Ok o /\
     length (o_ss o) = 4%nat /\ (forall a, In a (o_ss o) -> In a [0; 90]) /\
     (distance (o_lampam o) [1%Q] <= 1 # 10000000000)%Q /\ o_obj o <> None).
Proof.
  cbv zeta. split.
  - intros k Hk. exists (nth k [1; 2; 2] 0). do 3 (destruct k as [|k]; [split; [reflexivity|]; split; [cbn; lia|]; exists [1; 1]; split; [discriminate|]; split; [|reflexivity]; intros x Hx; cbn in Hx |- *; lia|]). lia.
  - intros k _ _ _. eexists. split; [reflexivity|]. split; [reflexivity|]. split; [cbn; intuition|]. split; [vm_compute; discriminate|discriminate].
Qed.
