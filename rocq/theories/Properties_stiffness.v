(* Properties_stiffness.v - C59 material, C60 buckling *)
From Verif Require Import Base Constraints Stiffness StiffnessProofs.
From Coq Require Import Lqa.
Local Open Scope Z_scope.
Local Notation "a ^2" := (a * a)%Q (at level 30, format "a ^2") : Q_scope.

(* ------------------------------------------------------------------ *)
(** * Specification: plies and laminates of the classical laminate theory *)

(** a fibre orientation, given by its cosine and sine *)
Record dir := { co : Q; si : Q }.
Definition unit_dir (d : dir) : Prop := (co d ^2 + si d ^2 == 1)%Q.
Definition cos2 d := (co d ^2 - si d ^2)%Q.
Definition sin2 d := (2 * co d * si d)%Q.
Definition cos4 d := (cos2 d ^2 - sin2 d ^2)%Q.
Definition sin4 d := (2 * sin2 d * cos2 d)%Q.

(** stiffnesses of a ply of stiffnesses q11, q12, q22, q66 turned by the angle *)
Definition rot11 (m : material) d := (Q11 m * (co d ^2 * co d ^2) + 2 * (Q12 m + 2 * Q66 m) * (co d ^2 * si d ^2) + Q22 m * (si d ^2 * si d ^2))%Q.
Definition rot22 (m : material) d := (Q11 m * (si d ^2 * si d ^2) + 2 * (Q12 m + 2 * Q66 m) * (co d ^2 * si d ^2) + Q22 m * (co d ^2 * co d ^2))%Q.
Definition rot12 (m : material) d := ((Q11 m + Q22 m - 4 * Q66 m) * (co d ^2 * si d ^2) + Q12 m * (co d ^2 * co d ^2 + si d ^2 * si d ^2))%Q.
Definition rot66 (m : material) d := ((Q11 m + Q22 m - 2 * Q12 m - 2 * Q66 m) * (co d ^2 * si d ^2) + Q66 m * (co d ^2 * co d ^2 + si d ^2 * si d ^2))%Q.
Definition rot16 (m : material) d := ((Q11 m - Q12 m - 2 * Q66 m) * (co d ^2 * co d * si d) + (Q12 m - Q22 m + 2 * Q66 m) * (co d * (si d ^2 * si d)))%Q.
Definition rot26 (m : material) d := ((Q11 m - Q12 m - 2 * Q66 m) * (co d * (si d ^2 * si d)) + (Q12 m - Q22 m + 2 * Q66 m) * (co d ^2 * co d * si d))%Q.

(** a laminate: share of each ply (of the thickness, or of the second moment) and its orientation *)
Definition shares (lam : list (Q * dir)) : Prop := (forall p, In p lam -> 0 <= fst p)%Q /\ (sumQ (map fst lam) == 1)%Q /\ (forall p, In p lam -> unit_dir (snd p)).
Definition mean (f : dir -> Q) (lam : list (Q * dir)) : Q := sumQ (map (fun p => (fst p * f (snd p))%Q) lam).

(** a real material: positive moduli, and nu12^2 E22 < E11 *)
Definition physical (m : material) : Prop := (0 < E11 m /\ 0 < E22 m /\ 0 < G12 m /\ nu12 m ^2 * E22 m < E11 m)%Q.

(* ------------------------------------------------------------------ *)
(** * C59: the material *)

Theorem C59_constants : forall a m, mk_material a = Ok m ->
  E11 m = a_E11 a /\ E22 m = a_E22 a /\ G12 m = a_G12 a /\ nu12 m = a_nu12 a /\ ply_t m = a_t a /\ (0 < ply_t m /\ 0 < E11 m)%Q /\
  (nu21 m * E11 m == nu12 m * E22 m)%Q /\ ~ (nu12 m * nu21 m == 1)%Q /\
  (Q11 m * (1 - nu12 m * nu21 m) == E11 m)%Q /\ (Q22 m * (1 - nu12 m * nu21 m) == E22 m)%Q /\
  (Q12 m == nu12 m * Q22 m /\ Q12 m == nu21 m * Q11 m)%Q /\ Q66 m = G12 m.
Proof.
  intros a m H. apply mk_material_inv in H.
  destruct H as (H1 & H2 & _ & _ & e1 & e2 & e3 & e4 & e5 & H3 & H4 & H5 & H6 & H7 & e6 & _).
  do 5 (split; auto). split; [rewrite e5, e1; auto|]. split; auto. split; [intros X; apply H4; rewrite X; ring|].
  split; auto. split; auto. split; [|auto]. split.
  - apply (Qmult_inj_r _ _ (1 - nu12 m * nu21 m)%Q H4). rewrite H6.
    transitivity (nu12 m * (Q22 m * (1 - nu12 m * nu21 m)))%Q; [rewrite H7; reflexivity|ring].
  - apply (Qmult_inj_r _ _ (1 - nu12 m * nu21 m)%Q H4). rewrite H6, <- H3.
    transitivity (nu21 m * (Q11 m * (1 - nu12 m * nu21 m)))%Q; [rewrite H5; reflexivity|ring].
Qed.
Print Assumptions C59_constants.

(** the invariants give the stiffnesses of the turned ply *)
Theorem C59_rotated_ply : forall a m d, mk_material a = Ok m -> unit_dir d ->
  (rot11 m d == U1 m + U2 m * cos2 d + U3 m * cos4 d)%Q /\
  (rot22 m d == U1 m - U2 m * cos2 d + U3 m * cos4 d)%Q /\
  (rot12 m d == U4 m - U3 m * cos4 d)%Q /\ (rot66 m d == U5 m - U3 m * cos4 d)%Q /\
  (rot16 m d == (1 # 2) * U2 m * sin2 d + U3 m * sin4 d)%Q /\
  (rot26 m d == (1 # 2) * U2 m * sin2 d - U3 m * sin4 d)%Q.
Proof.
  intros a m d H U. apply mk_material_inv in H.
  destruct H as (_ & _ & _ & _ & _ & _ & _ & _ & _ & _ & _ & _ & _ & _ & _ & u1 & u2 & u3 & u4 & u5 & _).
  unfold unit_dir in U.
  assert (X1 : (U1 m == U1 m * ((co d ^2 + si d ^2) * (co d ^2 + si d ^2)))%Q) by (rewrite U; ring).
  assert (X4 : (U4 m == U4 m * ((co d ^2 + si d ^2) * (co d ^2 + si d ^2)))%Q) by (rewrite U; ring).
  assert (X5 : (U5 m == U5 m * ((co d ^2 + si d ^2) * (co d ^2 + si d ^2)))%Q) by (rewrite U; ring).
  assert (X2 : (U2 m == U2 m * (co d ^2 + si d ^2))%Q) by (rewrite U; ring).
  unfold rot11, rot22, rot12, rot66, rot16, rot26, cos4, sin4, cos2, sin2.
  rewrite X1, X2, X4, X5, u1, u2, u3, u4, u5. clear. repeat split; field.
Qed.
Print Assumptions C59_rotated_ply.

Lemma mean_affine f g k1 k2 k3 lam : (sumQ (map (fun p => fst p * (k1 + k2 * f (snd p) + k3 * g (snd p))) lam) ==
  k1 * sumQ (map fst lam) + k2 * mean f lam + k3 * mean g lam)%Q.
Proof.
  unfold mean. induction lam as [|[w d] lam IH]; [cbn; ring|].
  cbn [map fst snd]. unfold sumQ in *. cbn [fold_right]. rewrite IH. ring.
Qed.

Lemma mean_ext f g lam : (forall p, In p lam -> f (snd p) == g (snd p))%Q -> (mean f lam == mean g lam)%Q.
Proof.
  unfold mean. induction lam as [|p lam IH]; intros H; [reflexivity|].
  cbn [map]. unfold sumQ in *. cbn [fold_right]. rewrite IH by (intros; apply H; right; auto).
  rewrite (H p (or_introl eq_refl)). reflexivity.
Qed.

Lemma mean_lin f g k1 k2 k3 lam : (sumQ (map fst lam) == 1)%Q ->
  (mean (fun d => k1 + k2 * f d + k3 * g d) lam == k1 + k2 * mean f lam + k3 * mean g lam)%Q.
Proof.
  intros H. unfold mean at 1. rewrite (mean_affine f g), H. ring.
Qed.

(** the stiffnesses of a laminate (average of the turned plies) from its lamination parameters *)
Theorem C59_laminate : forall a m lam, mk_material a = Ok m -> shares lam ->
  let V1 := mean cos2 lam in let V2 := mean cos4 lam in let V3 := mean sin2 lam in let V4 := mean sin4 lam in
  (mean (rot11 m) lam == U1 m + U2 m * V1 + U3 m * V2)%Q /\ (mean (rot22 m) lam == U1 m - U2 m * V1 + U3 m * V2)%Q /\
  (mean (rot12 m) lam == - U3 m * V2 + U4 m)%Q /\ (mean (rot66 m) lam == - U3 m * V2 + U5 m)%Q /\
  (mean (rot16 m) lam == (1 # 2) * U2 m * V3 + U3 m * V4)%Q /\ (mean (rot26 m) lam == (1 # 2) * U2 m * V3 - U3 m * V4)%Q.
Proof.
  intros a m lam H [_ [S1 S2]] V1 V2 V3 V4.
  assert (R : forall d, unit_dir d -> _) by (intros d; exact (C59_rotated_ply a m d H)).
  assert (G : forall f g h k1 k2 k3, (forall d, unit_dir d -> f d == k1 + k2 * g d + k3 * h d)%Q -> (mean f lam == k1 + k2 * mean g lam + k3 * mean h lam)%Q).
  { intros f g h k1 k2 k3 E. rewrite <- (mean_lin g h k1 k2 k3 lam S1). apply mean_ext. intros p Hp. apply E, S2, Hp. }
  split; [|split; [|split; [|split; [|split]]]].
  - rewrite (G _ cos2 cos4 (U1 m) (U2 m) (U3 m)); [reflexivity|]. intros d D. apply (R d D).
  - rewrite (G _ cos2 cos4 (U1 m) (- U2 m)%Q (U3 m)); [unfold V1, V2; ring|]. intros d D. destruct (R d D) as (_ & e & _). rewrite e. ring.
  - rewrite (G _ cos2 cos4 (U4 m) 0%Q (- U3 m)%Q); [unfold V1, V2; ring|]. intros d D. destruct (R d D) as (_ & _ & e & _). rewrite e. ring.
  - rewrite (G _ cos2 cos4 (U5 m) 0%Q (- U3 m)%Q); [unfold V1, V2; ring|]. intros d D. destruct (R d D) as (_ & _ & _ & e & _). rewrite e. ring.
  - rewrite (G _ sin2 sin4 0%Q ((1 # 2) * U2 m)%Q (U3 m)); [unfold V3, V4; ring|]. intros d D. destruct (R d D) as (_ & _ & _ & _ & e & _). rewrite e. ring.
  - rewrite (G _ sin2 sin4 0%Q ((1 # 2) * U2 m)%Q (- U3 m)%Q); [unfold V3, V4; ring|]. intros d D. destruct (R d D) as (_ & _ & _ & _ & _ & e). rewrite e. ring.
Qed.
Print Assumptions C59_laminate.

(** positive stiffness of a real material *)
Theorem C59_positive : forall a m, mk_material a = Ok m -> physical m ->
  (0 < Q11 m /\ 0 < Q22 m /\ 0 < Q66 m /\ Q12 m ^2 < Q11 m * Q22 m)%Q.
Proof.
  intros a m H [P1 [P2 [P3 P4]]].
  destruct (C59_constants a m H) as (_ & _ & _ & _ & _ & _ & c1 & c2 & c3 & c4 & [c5 _] & c6).
  set (b := (1 - nu12 m * nu21 m)%Q) in *.
  assert (B : (0 < b)%Q).
  { apply Qnot_le_lt. intros X. assert (Y : (b * E11 m <= 0)%Q) by nra.
    unfold b in Y. assert (Z : (nu12 m * (nu21 m * E11 m) == nu12 m ^2 * E22 m)%Q) by (rewrite c1; ring). nra. }
  assert (A1 : (0 < Q11 m)%Q) by (apply Qnot_le_lt; intros X; nra).
  assert (A2 : (0 < Q22 m)%Q) by (apply Qnot_le_lt; intros X; nra).
  do 2 (split; auto). split; [rewrite c6; auto|]. rewrite c5.
  assert (A3 : (nu12 m ^2 * Q22 m < Q11 m)%Q).
  { apply Qnot_le_lt. intros X. assert (Y : (Q11 m * b <= nu12 m ^2 * Q22 m * b)%Q) by nra.
    assert (Z : (nu12 m ^2 * Q22 m * b == nu12 m ^2 * E22 m)%Q) by (rewrite <- c4; ring). lra. }
  setoid_replace (nu12 m * Q22 m * (nu12 m * Q22 m))%Q with (nu12 m ^2 * Q22 m * Q22 m)%Q by ring. nra.
Qed.
Print Assumptions C59_positive.

(** the constructor lets negative transverse and shear moduli pass *)
Theorem C59_moduli_checked_refuted : ~ (forall a m, mk_material a = Ok m -> 0 < E22 m /\ 0 < G12 m)%Q.
Proof.
  intros H. destruct (H {| a_E11 := 130; a_E22 := -9; a_nu12 := 3 # 10; a_G12 := -4; a_dv := 0; a_da := 0; a_t := 1 # 5000 |} _ eq_refl) as [X _].
  vm_compute in X. discriminate.
Qed.
Print Assumptions C59_moduli_checked_refuted.

(** densities: consistent when exactly one of them is given *)
Theorem C59_density_partial : forall a m, mk_material a = Ok m ->
  (a_da a == 0 /\ ~ a_dv a == 0 \/ ~ a_da a == 0 /\ a_dv a == 0)%Q ->
  (density_area m == density_volume m * ply_t m /\ (0 < density_area m) /\ (0 < density_volume m) /\
   (a_dv a == 0 -> density_area m == a_da a) /\ (a_da a == 0 -> density_volume m == a_dv a))%Q.
Proof.
  intros a m H C. apply mk_material_inv in H.
  destruct H as (_ & T & P1 & P2 & _ & _ & _ & _ & et & _ & _ & _ & _ & _ & _ & _ & _ & _ & _ & _ & D1 & D2 & D3 & D4). rewrite et.
  destruct C as [[C1 C2]|[C1 C2]].
  - destruct (D2 C1 C2) as [X Y]. assert (A : (0 < a_dv a)%Q) by (apply Qnot_le_lt; intros Z; apply C2, Qle_antisym; auto).
    split; [rewrite X, Y; reflexivity|]. split; [rewrite Y; nra|]. split; [rewrite X; auto|]. split; [contradiction|auto].
  - destruct (D3 C1 C2) as [X Y]. assert (A : (0 < a_da a)%Q) by (apply Qnot_le_lt; intros Z; apply C1, Qle_antisym; auto).
    split; [rewrite X, Y; reflexivity|]. split; [rewrite X; auto|]. split; [apply Qnot_le_lt; intros Z; nra|]. split; [auto|contradiction].
Qed.
Print Assumptions C59_density_partial.

(** without any density, the volumic density stays 0 although the areal one is set to 300.5 *)
Theorem C59_density_refuted : ~ (forall a m, mk_material a = Ok m -> a_da a == 0 -> density_area m == density_volume m * ply_t m)%Q.
Proof.
  intros H. specialize (H {| a_E11 := 130; a_E22 := 9; a_nu12 := 3 # 10; a_G12 := 4; a_dv := 0; a_da := 0; a_t := 1 # 5000 |} _ eq_refl (Qeq_refl _)).
  vm_compute in H. discriminate.
Qed.
Print Assumptions C59_density_refuted.

(* ------------------------------------------------------------------ *)
(** * C60: buckling *)

Lemma form_pos (m : material) e1 e2 : (0 < Q11 m)%Q -> (Q12 m ^2 < Q11 m * Q22 m)%Q -> ~ (e1 == 0 /\ e2 == 0)%Q ->
  (0 < Q11 m * e1 ^2 + 2 * Q12 m * (e1 * e2) + Q22 m * e2 ^2)%Q.
Proof.
  intros P1 P2 N. apply Qnot_le_lt. intros X.
  assert (Y : (Q11 m * (Q11 m * e1 ^2 + 2 * Q12 m * (e1 * e2) + Q22 m * e2 ^2) == (Q11 m * e1 + Q12 m * e2) ^2 + (Q11 m * Q22 m - Q12 m ^2) * e2 ^2)%Q) by ring.
  assert (Z : (Q11 m * (Q11 m * e1 ^2 + 2 * Q12 m * (e1 * e2) + Q22 m * e2 ^2) <= 0)%Q) by nra.
  rewrite Y in Z.
  assert (S : forall x, (0 <= x ^2)%Q) by (intros x; destruct (Qlt_le_dec x 0); nra).
  pose proof (S (Q11 m * e1 + Q12 m * e2)%Q) as S1. pose proof (S e2) as S2.
  assert (E2 : (e2 == 0)%Q).
  { destruct (Qeq_dec e2 0) as [|NE]; auto. exfalso. assert (0 < e2 ^2)%Q by (destruct (Qlt_le_dec e2 0); [nra|]; assert (0 < e2)%Q by (apply Qnot_le_lt; intros U; apply NE, Qle_antisym; auto); nra). nra. }
  apply N. split; auto. destruct (Qeq_dec e1 0) as [|NE]; auto. exfalso. rewrite E2 in Z.
  assert (0 < e1 ^2)%Q by (destruct (Qlt_le_dec e1 0); [nra|]; assert (0 < e1)%Q by (apply Qnot_le_lt; intros U; apply NE, Qle_antisym; auto); nra).
  assert ((Q11 m * e1 + Q12 m * 0) ^2 + (Q11 m * Q22 m - Q12 m ^2) * 0 ^2 == Q11 m * Q11 m * e1 ^2)%Q by ring.
  assert (0 < Q11 m * Q11 m * e1 ^2)%Q by (apply Qmult_lt_0_compat; auto; apply Qmult_lt_0_compat; auto). lra.
Qed.

(** the energy of a turned ply for the half-waves alpha, beta > 0 *)
Lemma ply_energy (m : material) d al be : (0 < Q11 m)%Q -> (0 < Q66 m)%Q -> (Q12 m ^2 < Q11 m * Q22 m)%Q -> unit_dir d ->
  (0 < al)%Q -> (0 < be)%Q ->
  (0 < rot11 m d * (al * al) + 2 * (rot12 m d + 2 * rot66 m d) * al * be + rot22 m d * (be * be))%Q.
Proof.
  intros P1 P2 P3 U A B. unfold unit_dir in U.
  set (c := (co d ^2)%Q) in *. set (s := (si d ^2)%Q) in *.
  assert (C0 : (0 <= c)%Q) by (unfold c; destruct (Qlt_le_dec (co d) 0); nra).
  assert (S0 : (0 <= s)%Q) by (unfold s; destruct (Qlt_le_dec (si d) 0); nra).
  assert (E : (rot11 m d * (al * al) + 2 * (rot12 m d + 2 * rot66 m d) * al * be + rot22 m d * (be * be) ==
     (Q11 m * (c * al + s * be) ^2 + 2 * Q12 m * ((c * al + s * be) * (s * al + c * be)) + Q22 m * (s * al + c * be) ^2) +
     4 * (Q66 m * (c * s) * ((al - be) ^2)) + 4 * ((Q11 m + Q22 m - 2 * Q12 m) * (c * s) + Q66 m * (c - s) ^2) * (al * be))%Q).
  { unfold rot11, rot12, rot22, rot66. fold c s. ring. }
  rewrite E. clear E.
  assert (F1 : (0 < Q11 m * (c * al + s * be) ^2 + 2 * Q12 m * ((c * al + s * be) * (s * al + c * be)) + Q22 m * (s * al + c * be) ^2)%Q).
  { apply form_pos; auto. intros [X Y]. assert ((c + s) * (al + be) == 0)%Q by (transitivity ((c * al + s * be) + (s * al + c * be))%Q; [ring|rewrite X, Y; ring]).
    rewrite U in H. nra. }
  assert (F2 : (0 < Q11 m + Q22 m - 2 * Q12 m)%Q).
  { assert (G : ~ (1 == 0 /\ -1 == 0)%Q) by (intros [G _]; discriminate G).
    pose proof (form_pos m 1 (-1) P1 P3 G) as X. lra. }
  assert (CS : (0 <= c * s)%Q) by (apply Qmult_le_0_compat; auto).
  assert (SQ : forall x, (0 <= x ^2)%Q) by (intros x; destruct (Qlt_le_dec x 0); nra).
  assert (F3 : (0 <= Q66 m * (c * s) * ((al - be) ^2))%Q) by (apply Qmult_le_0_compat; [apply Qmult_le_0_compat; [lra|exact CS]|apply SQ]).
  assert (F4 : (0 <= ((Q11 m + Q22 m - 2 * Q12 m) * (c * s) + Q66 m * (c - s) ^2) * (al * be))%Q).
  { apply Qmult_le_0_compat; [|apply Qmult_le_0_compat; lra].
    assert (0 <= (Q11 m + Q22 m - 2 * Q12 m) * (c * s))%Q by (apply Qmult_le_0_compat; lra).
    assert (0 <= Q66 m * (c - s) ^2)%Q by (apply Qmult_le_0_compat; [lra|apply SQ]). lra. }
  lra.
Qed.

Lemma mean_pos f lam : shares lam -> (forall d, unit_dir d -> 0 < f d)%Q -> (0 < mean f lam)%Q.
Proof.
  intros [W [S U]] P.
  assert (A : forall l, (forall p, In p l -> In p lam) -> (0 <= mean f l /\ (mean f l == 0 -> sumQ (map fst l) == 0))%Q).
  { induction l as [|p l IH]; intros I; [split; [apply Qle_refl|reflexivity]|].
    destruct IH as [I1 I2]; [intros; apply I; right; auto|].
    pose proof (W p (I p (or_introl eq_refl))) as Wp. pose proof (P _ (U p (I p (or_introl eq_refl)))) as Pp.
    change (mean f (p :: l)) with (fst p * f (snd p) + mean f l)%Q. change (sumQ (map fst (p :: l))) with (fst p + sumQ (map fst l))%Q.
    assert (0 <= fst p * f (snd p))%Q by (apply Qmult_le_0_compat; lra). split; [lra|]. intros E.
    assert (E1 : (mean f l == 0)%Q) by lra. assert (E2 : (fst p * f (snd p) == 0)%Q) by lra. rewrite (I2 E1).
    apply Qmult_integral in E2 as [E2|E2]; [rewrite E2; ring|lra]. }
  destruct (A lam (fun p H => H)) as [A1 A2]. apply Qle_lteq in A1 as [A1|A1]; auto. symmetry in A1. apply A2 in A1. rewrite S in A1. discriminate A1.
Qed.

(** [bends lampam lam]: the out-of-plane lamination parameters are those of the laminate *)
Definition bends (lampam : list Q) (lam : list (Q * dir)) : Prop :=
  length lampam = 12%nat /\ (nth 8 lampam 0 == mean cos2 lam /\ nth 9 lampam 0 == mean cos4 lam)%Q.

Lemma bending_12 lampam mat np : length lampam = 12%nat ->
  let h := (inject_Z np * ply_t mat)%Q in let a := ((1 # 12) * (h * h * h))%Q in
  let v8 := nth 8 lampam 0%Q in let v9 := nth 9 lampam 0%Q in
  bending lampam mat np = Ok ((a * (U1 mat + U2 mat * v8 + U3 mat * v9))%Q, (a * (- U3 mat * v9 + U4 mat))%Q,
        (a * (U1 mat - U2 mat * v8 + U3 mat * v9))%Q, (a * (- U3 mat * v9 + U5 mat))%Q).
Proof.
  intros L h a v8 v9. unfold bending, at_. fold h a. rewrite L. cbn [Nat.eqb].
  rewrite !(nth_error_nth' lampam 0%Q) by lia. reflexivity.
Qed.

(** the value: with the laminate's own stiffnesses D, the classical formula
    pi^2 (D11 (m/a)^4 + 2 (D12 + 2 D66) (m/a)^2 (n/b)^2 + D22 (n/b)^4) / (Nx (m/a)^2 + Ny (n/b)^2) *)
Definition classical (pi2 h : Q) (mat : material) (lam : list (Q * dir)) (m n : Z) (Nx Ny lx ly : Q) : Q :=
  let D f := (h * h * h / 12 * mean (f mat) lam)%Q in
  let x := ((inject_Z m / lx) ^2)%Q in let y := ((inject_Z n / ly) ^2)%Q in
  (pi2 * (D rot11 * x ^2 + 2 * (D rot12 + 2 * D rot66) * x * y + D rot22 * y ^2) / (x * Qabs Nx + y * Qabs Ny))%Q.

Lemma loads_pos (x y Nx Ny : Q) : (0 < x)%Q -> (0 < y)%Q -> ~ (Nx == 0 /\ Ny == 0)%Q -> (0 < x * Qabs Nx + y * Qabs Ny)%Q.
Proof.
  intros X Y N. pose proof (Qabs_nonneg Nx) as A. pose proof (Qabs_nonneg Ny) as B.
  assert (AP : forall z, (Qabs z == 0)%Q -> (z == 0)%Q) by (intros z; apply Qabs_case; intros; lra).
  destruct (Qeq_dec (Qabs Nx) 0) as [ZX|ZX].
  - assert (0 < Qabs Ny)%Q by (apply Qnot_le_lt; intros U; apply N; split; apply AP; auto; apply Qle_antisym; auto). nra.
  - assert (0 < Qabs Nx)%Q by (apply Qnot_le_lt; intros U; apply ZX, Qle_antisym; auto). nra.
Qed.

Lemma wave_pos m l : 1 <= m -> (0 < l)%Q -> (0 < (inject_Z m / l) ^2)%Q.
Proof.
  intros M L. assert (0 < inject_Z m / l)%Q by (apply Qlt_shift_div_l; auto; rewrite Qmult_0_l; change 0%Q with (inject_Z 0); rewrite <- Zlt_Qlt; lia). nra.
Qed.

Theorem C60_value : forall pi2 args mat lampam lam np Nx Ny lx ly k,
  (0 < pi2)%Q -> mk_material args = Ok mat -> physical mat -> shares lam -> bends lampam lam ->
  1 <= np -> (0 < lx)%Q -> (0 < ly)%Q -> ~ (Nx == 0 /\ Ny == 0)%Q -> (1 <= k)%nat ->
  let f := classical pi2 (inject_Z np * ply_t mat) mat lam in
  exists v, buckling_factor pi2 lampam mat np Nx Ny lx ly k = Ok v /\ (0 < v)%Q /\
  (forall m n, (1 <= m <= Z.of_nat k)%Z -> (1 <= n <= Z.of_nat k)%Z -> v <= f m n Nx Ny lx ly)%Q /\
  (exists m n, (1 <= m <= Z.of_nat k)%Z /\ (1 <= n <= Z.of_nat k)%Z /\ v == f m n Nx Ny lx ly)%Q.
Proof.
  intros pi2 args mat lampam lam np Nx Ny lx ly k PI HM PH SH [L [B8 B9]] NP LX LY NN K f.
  destruct (C59_positive args mat HM PH) as (Q1 & Q2 & Q3 & Q4).
  pose proof (C59_laminate args mat lam HM SH) as (e11 & e22 & e12 & e66 & _).
  assert (T : (0 < ply_t mat)%Q) by (destruct (C59_constants args mat HM) as (_ & _ & _ & _ & _ & [X _] & _); exact X).
  set (h := (inject_Z np * ply_t mat)%Q) in *.
  assert (HP : (0 < h)%Q) by (apply Qmult_lt_0_compat; auto; change 0%Q with (inject_Z 0); rewrite <- Zlt_Qlt; lia).
  assert (HH : (0 < h * h * h)%Q) by (apply Qmult_lt_0_compat; auto; apply Qmult_lt_0_compat; auto).
  pose proof (bending_12 lampam mat np L) as BD. cbv zeta in BD. fold h in BD.
  set (D := (((1 # 12) * (h * h * h)) * (U1 mat + U2 mat * nth 8 lampam 0 + U3 mat * nth 9 lampam 0),
             ((1 # 12) * (h * h * h)) * (- U3 mat * nth 9 lampam 0 + U4 mat),
             ((1 # 12) * (h * h * h)) * (U1 mat - U2 mat * nth 8 lampam 0 + U3 mat * nth 9 lampam 0),
             ((1 # 12) * (h * h * h)) * (- U3 mat * nth 9 lampam 0 + U5 mat))%Q) in *.
  assert (M : forall m n, 1 <= m -> 1 <= n -> exists g, buckling_factor_m_n pi2 D m n Nx Ny lx ly = Ok g /\ (g == f m n Nx Ny lx ly)%Q /\ (0 < g)%Q).
  { intros m n M1 N1. unfold buckling_factor_m_n, D. cbv iota beta. clear BD D.
    rewrite (qdiv_nz _ lx) by lra. cbn [bind]. rewrite (qdiv_nz _ ly) by lra. cbn [bind].
    pose proof (wave_pos m lx M1 LX) as XP. pose proof (wave_pos n ly N1 LY) as YP. unfold f, classical.
    set (x := ((inject_Z m / lx) ^2)%Q) in *. set (y := ((inject_Z n / ly) ^2)%Q) in *. clearbody x y.
    pose proof (loads_pos x y Nx Ny XP YP NN) as DP. rewrite qdiv_nz by lra.
    eexists. split; [reflexivity|].
    match goal with |- (?u == ?w)%Q /\ _ => assert (EQ : (u == w)%Q) end.
    { rewrite e11, e12, e22, e66, B8, B9. field. lra. }
    split; [exact EQ|]. rewrite EQ. apply Qlt_shift_div_l; auto. rewrite Qmult_0_l. apply Qmult_lt_0_compat; auto.
    assert (EN : (0 < mean (fun d => rot11 mat d * (x * x) + 2 * (rot12 mat d + 2 * rot66 mat d) * x * y + rot22 mat d * (y * y)) lam)%Q).
    { apply mean_pos; auto. intros d U. apply ply_energy; auto. }
    assert (ES : (mean (fun d => rot11 mat d * (x * x) + 2 * (rot12 mat d + 2 * rot66 mat d) * x * y + rot22 mat d * (y * y)) lam ==
       mean (rot11 mat) lam * (x * x) + 2 * (mean (rot12 mat) lam + 2 * mean (rot66 mat) lam) * x * y + mean (rot22 mat) lam * (y * y))%Q).
    { clear. unfold mean. induction lam as [|p lam IH]; [cbn; ring|]. cbn [map]. unfold sumQ in *. cbn [fold_right]. rewrite IH. ring. }
    rewrite ES in EN.
    match goal with |- (0 < ?u)%Q => setoid_replace u with ((h * h * h / 12) * (mean (rot11 mat) lam * (x * x) + 2 * (mean (rot12 mat) lam + 2 * mean (rot66 mat) lam) * x * y + mean (rot22 mat) lam * (y * y)))%Q by field end.
    apply Qmult_lt_0_compat; auto. apply Qlt_shift_div_l; lra. }
  destruct (buckling_ok pi2 lampam mat np Nx Ny lx ly k D BD K) as [v Ev].
  { intros m n M1 N1. destruct (M m n) as [g [G _]]; try lia. eauto. }
  exists v. split; auto. destruct (buckling_inv _ _ _ _ _ _ _ _ _ _ Ev) as [D' [ED [_ [A [m0 [n0 [M0 [N0 E0]]]]]]]].
  assert (D' = D) as -> by congruence.
  destruct (M m0 n0) as [g0 [G0 [G1 G2]]]; try lia. assert (g0 = v) as -> by congruence.
  split; auto. split.
  - intros m n M1 N1. destruct (A m n M1 N1) as [g [G LE]]. destruct (M m n) as [g' [G' [EQ _]]]; try lia.
    assert (g' = g) as -> by congruence. rewrite <- EQ. auto.
  - exists m0, n0. auto.
Qed.
Print Assumptions C60_value.

(** testing more modes never increases the factor *)
Theorem C60_more_modes : forall pi2 lampam mat np Nx Ny lx ly k k' v v', (k <= k')%nat ->
  buckling_factor pi2 lampam mat np Nx Ny lx ly k = Ok v -> buckling_factor pi2 lampam mat np Nx Ny lx ly k' = Ok v' -> (v' <= v)%Q.
Proof.
  intros pi2 lampam mat np Nx Ny lx ly k k' v v' K E E'.
  destruct (buckling_inv _ _ _ _ _ _ _ _ _ _ E) as [D [ED [_ [_ [m [n [M [N G]]]]]]]].
  destruct (buckling_inv _ _ _ _ _ _ _ _ _ _ E') as [D' [ED' [_ [A _]]]]. assert (D' = D) as -> by congruence.
  destruct (A m n) as [g [Eg L]]; try lia. assert (g = v) as <- by congruence. auto.
Qed.
Print Assumptions C60_more_modes.

Lemma transfer pi2 l l' mat mat' np np' Nx Ny lx ly Nx' Ny' lx' ly' k v t (sw : bool) : (0 < t)%Q ->
  buckling_factor pi2 l mat np Nx Ny lx ly k = Ok v ->
  (forall D, bending l mat np = Ok D -> exists D', bending l' mat' np' = Ok D' /\
    forall m n g, 1 <= m -> 1 <= n -> buckling_factor_m_n pi2 D m n Nx Ny lx ly = Ok g ->
      exists g', buckling_factor_m_n pi2 D' (if sw then n else m) (if sw then m else n) Nx' Ny' lx' ly' = Ok g' /\ (g' * t == g)%Q) ->
  exists v', buckling_factor pi2 l' mat' np' Nx' Ny' lx' ly' k = Ok v' /\ (v' * t == v)%Q.
Proof.
  intros T E H. destruct (buckling_inv _ _ _ _ _ _ _ _ _ _ E) as [D [ED [K [A [m0 [n0 [M0 [N0 G0]]]]]]]].
  destruct (H D ED) as [D' [ED' R]].
  destruct (buckling_ok pi2 l' mat' np' Nx' Ny' lx' ly' k D' ED' K) as [v' Ev'].
  { intros m n M N. destruct sw.
    - destruct (A n m N M) as [g [Eg _]]. destruct (R n m g) as [g' [Eg' _]]; try lia; auto. exists g'. exact Eg'.
    - destruct (A m n M N) as [g [Eg _]]. destruct (R m n g) as [g' [Eg' _]]; try lia; auto. exists g'. exact Eg'. }
  exists v'. split; auto.
  destruct (buckling_inv _ _ _ _ _ _ _ _ _ _ Ev') as [D2 [ED2 [_ [A' [m1 [n1 [M1 [N1 G1]]]]]]]].
  assert (D2 = D') as -> by congruence.
  apply Qle_antisym.
  - destruct (R m0 n0 v) as [g' [Eg' Q]]; try lia; auto.
    assert (LE : (v' <= g')%Q).
    { destruct sw; [destruct (A' n0 m0 N0 M0) as [x [Ex Lx]]|destruct (A' m0 n0 M0 N0) as [x [Ex Lx]]];
      assert (x = g') as <- by congruence; auto. }
    rewrite <- Q. apply Qmult_le_compat_r; [auto|lra].
  - destruct sw.
    + destruct (A n1 m1 N1 M1) as [g [Eg L]]. destruct (R n1 m1 g) as [g' [Eg' Q]]; try lia; auto.
      assert (g' = v') as -> by congruence. rewrite Q. auto.
    + destruct (A m1 n1 M1 N1) as [g [Eg L]]. destruct (R m1 n1 g) as [g' [Eg' Q]]; try lia; auto.
      assert (g' = v') as -> by congruence. rewrite Q. auto.
Qed.

(** twice the loads, half the factor *)
Theorem C60_load_scaling : forall pi2 lampam mat np Nx Ny lx ly k v t, (0 < t)%Q ->
  buckling_factor pi2 lampam mat np Nx Ny lx ly k = Ok v ->
  exists v', buckling_factor pi2 lampam mat np (t * Nx) (t * Ny) lx ly k = Ok v' /\ (v' * t == v)%Q.
Proof.
  intros pi2 lampam mat np Nx Ny lx ly k v t T E. apply (transfer _ _ _ _ _ _ _ _ _ _ _ _ _ _ _ _ _ t false T E).
  intros D ED. exists D. split; auto. intros m n g _ _ G. unfold buckling_factor_m_n in *. destruct D as [[[D11 D12] D22] D66].
  destruct (qdiv (inject_Z m) lx) as [u|]; cbn [bind] in *; [|discriminate]. destruct (qdiv (inject_Z n) ly) as [w|]; cbn [bind] in *; [|discriminate].
  apply qdiv_ok in G as [Z ->].
  assert (EQ : (u * u * Qabs (t * Nx) + w * w * Qabs (t * Ny) == t * (u * u * Qabs Nx + w * w * Qabs Ny))%Q).
  { rewrite !Qabs_Qmult, (Qabs_pos t) by lra. ring. }
  assert (Z2 : ~ (u * u * Qabs (t * Nx) + w * w * Qabs (t * Ny) == 0)%Q).
  { rewrite EQ. intros X. apply Qmult_integral in X as [X|X]; [lra|contradiction]. }
  rewrite qdiv_nz by auto. eexists. split; [reflexivity|]. rewrite EQ. field. split; [auto|lra].
Qed.
Print Assumptions C60_load_scaling.

(** the sign of the loads does not matter: tension and compression give the same factor *)
Theorem C60_load_sign : forall pi2 lampam mat np Nx Ny lx ly k,
  buckling_factor pi2 lampam mat np (- Nx) Ny lx ly k = buckling_factor pi2 lampam mat np Nx Ny lx ly k /\
  buckling_factor pi2 lampam mat np Nx (- Ny) lx ly k = buckling_factor pi2 lampam mat np Nx Ny lx ly k.
Proof.
  intros. assert (A : forall x : Q, Qabs (- x) = Qabs x).
  { intros [a b]. unfold Qabs, Qopp. cbn [Qnum Qden]. rewrite Z.abs_opp. reflexivity. }
  unfold buckling_factor, buckling_factor_m_n. split; rewrite A; reflexivity.
Qed.
Print Assumptions C60_load_sign.

(** turning the plate by 90 degrees (lengths and loads exchanged, cos 2 parameter negated) *)
Theorem C60_quarter_turn : forall pi2 lampam lampam' mat np Nx Ny lx ly k v,
  length lampam = 12%nat -> length lampam' = 12%nat -> (nth 8 lampam' 0 == - nth 8 lampam 0 /\ nth 9 lampam' 0 == nth 9 lampam 0)%Q ->
  buckling_factor pi2 lampam mat np Nx Ny lx ly k = Ok v ->
  exists v', buckling_factor pi2 lampam' mat np Ny Nx ly lx k = Ok v' /\ (v' == v)%Q.
Proof.
  intros pi2 l l' mat np Nx Ny lx ly k v L L' [B8 B9] E.
  destruct (transfer pi2 l l' mat mat np np Nx Ny lx ly Ny Nx ly lx k v 1 true ltac:(lra) E) as [v' [Ev' Q]].
  2:{ exists v'. split; auto. rewrite <- Q. ring. }
  intros D ED. pose proof (bending_12 l mat np L) as X. cbv zeta in X. rewrite X in ED. injection ED as <-. clear X.
  pose proof (bending_12 l' mat np L') as X. cbv zeta in X. rewrite X. clear X. eexists. split; [reflexivity|].
  intros m n g _ _ G. unfold buckling_factor_m_n in *. cbv iota beta in *.
  destruct (qdiv (inject_Z m) lx) as [u|]; cbn [bind] in *; [|discriminate]. destruct (qdiv (inject_Z n) ly) as [w|]; cbn [bind] in *; [|discriminate].
  cbn [bind]. apply qdiv_ok in G as [Z ->].
  assert (Z2 : ~ (w * w * Qabs Ny + u * u * Qabs Nx == 0)%Q) by (intros X; apply Z; rewrite <- X; ring).
  rewrite qdiv_nz by auto. eexists. split; [reflexivity|]. rewrite B8, B9. field. auto.
Qed.
Print Assumptions C60_quarter_turn.

(** non-negative margin exactly when the plate carries its loads *)
Theorem C60_margin : forall f, (0 <= buckling_margin f <-> 1 <= f)%Q.
Proof. intros f. unfold buckling_margin. split; intros; lra. Qed.
Print Assumptions C60_margin.

(** the other accepted form of the input, the four out-of-plane parameters alone, gives another factor:
    D66 is computed with the first parameter instead of the second *)
Theorem C60_four_parameters_refuted : ~ (forall pi2 args mat l0 l1 l2 l3 np Nx Ny lx ly k v v',
  mk_material args = Ok mat -> physical mat ->
  buckling_factor pi2 (repeat 0%Q 8 ++ [l0; l1; l2; l3]) mat np Nx Ny lx ly k = Ok v ->
  buckling_factor pi2 [l0; l1; l2; l3] mat np Nx Ny lx ly k = Ok v' -> v == v')%Q.
Proof.
  intros H.
  set (args := {| a_E11 := 130; a_E22 := 9; a_nu12 := 3 # 10; a_G12 := 4; a_dv := 0; a_da := 1; a_t := 1 # 5 |}).
  destruct (mk_material args) as [mat|] eqn:E; [|discriminate E].
  destruct (buckling_factor 10 (repeat 0%Q 8 ++ [1; 0; 0; 0]%Q) mat 10 1 1 1 1 1) as [v|] eqn:E1; [|vm_compute in E; injection E as <-; vm_compute in E1; discriminate].
  destruct (buckling_factor 10 [1; 0; 0; 0]%Q mat 10 1 1 1 1 1) as [v'|] eqn:E2; [|vm_compute in E; injection E as <-; vm_compute in E2; discriminate].
  assert (P : physical mat) by (vm_compute in E; injection E as <-; vm_compute; repeat split; reflexivity).
  specialize (H _ _ _ _ _ _ _ _ _ _ _ _ _ _ _ E P E1 E2).
  vm_compute in E. injection E as <-. vm_compute in E1, E2. injection E1 as <-. injection E2 as <-. vm_compute in H. discriminate H.
Qed.
Print Assumptions C60_four_parameters_refuted.

Theorem C60_four_parameters_partial : forall pi2 mat l0 l1 l2 l3 np Nx Ny lx ly k, l0 = l1 ->
  buckling_factor pi2 [l0; l1; l2; l3] mat np Nx Ny lx ly k = buckling_factor pi2 (repeat 0%Q 8 ++ [l0; l1; l2; l3]) mat np Nx Ny lx ly k.
Proof. intros. subst l1. reflexivity. Qed.
Print Assumptions C60_four_parameters_partial.

(** a laminate of three plies at 0 degrees, 90 degrees and the angle of cosine 3/5, the factor of one mode *)
Theorem C60_example :
  let args := {| a_E11 := 130; a_E22 := 9; a_nu12 := 3 # 10; a_G12 := 4; a_dv := 0; a_da := 1; a_t := 1 # 5 |} in
  let lam := [(1 # 2, {| co := 1; si := 0 |}); (1 # 4, {| co := 0; si := 1 |}); (1 # 4, {| co := 3 # 5; si := 4 # 5 |})]%Q in
  exists mat, mk_material args = Ok mat /\ physical mat /\ shares lam /\
  bends (repeat 0%Q 8 ++ [mean cos2 lam; mean cos4 lam; 0; 0]%Q) lam /\
  exists v, buckling_factor 10 (repeat 0%Q 8 ++ [mean cos2 lam; mean cos4 lam; 0; 0]%Q) mat 8 1 0 2 1 2 = Ok v /\ (0 < v)%Q.
Proof.
  intros args lam. eexists. split; [reflexivity|]. split; [vm_compute; repeat split; reflexivity|]. split; [|split].
  - split; [|split].
    + intros p [<-|[<-|[<-|[]]]]; cbn; lra.
    + vm_compute. reflexivity.
    + intros p [<-|[<-|[<-|[]]]]; vm_compute; reflexivity.
  - split; [reflexivity|]. split; reflexivity.
  - eexists. split; [vm_compute; reflexivity|]. vm_compute. reflexivity.
Qed.
Print Assumptions C60_example.
