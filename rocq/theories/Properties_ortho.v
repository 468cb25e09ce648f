(* Properties_ortho.v - C61 in-plane orthotropy parameters, C62 orthotropy penalties *)
From Verif Require Import Base Constraints SpecGuidelines Stiffness StiffnessProofs GuidelinesProofs Properties_stiffness.
From Coq Require Import Lqa.
Local Open Scope Z_scope.

(** lists of numbers equal entry by entry *)
Definition same (l m : list Q) : Prop := length l = length m /\ forall i, (nth i l 0 == nth i m 0)%Q.

(** [a] is the compliance of the stiffness [A]: A a = 1 *)
Definition compliance (A a : mat3) : Prop :=
  let p := mul3 (full A) (full a) in
  (g00 p == 1 /\ g01 p == 0 /\ g02 p == 0 /\ g10 p == 0 /\ g11 p == 1 /\ g12 p == 0 /\ g20 p == 0 /\ g21 p == 0 /\ g22 p == 1)%Q.

Lemma adiv_ok x y r : adiv x y = Ok r -> ~ (y == 0)%Q /\ r = Qabs (x / y).
Proof.
  unfold adiv. destruct (qdiv x y) as [z|] eqn:E; cbn [bind]; [|discriminate]. apply qdiv_ok in E as [E ->].
  intros H. injection H as <-. auto.
Qed.

Lemma seq6 (a b c d e f : result Q) r : sequence [a; b; c; d; e; f] = Ok r ->
  exists x1 x2 x3 x4 x5 x6, a = Ok x1 /\ b = Ok x2 /\ c = Ok x3 /\ d = Ok x4 /\ e = Ok x5 /\ f = Ok x6 /\ r = [x1; x2; x3; x4; x5; x6].
Proof.
  cbn [sequence]. destruct a as [x1|]; cbn [bind]; [|discriminate]. destruct b as [x2|]; cbn [bind]; [|discriminate].
  destruct c as [x3|]; cbn [bind]; [|discriminate]. destruct d as [x4|]; cbn [bind]; [|discriminate].
  destruct e as [x5|]; cbn [bind]; [|discriminate]. destruct f as [x6|]; cbn [bind]; [|discriminate].
  intros H. injection H as <-. exists x1, x2, x3, x4, x5, x6. do 6 (split; auto).
Qed.

Lemma same6 x1 x2 x3 x4 x5 x6 y1 y2 y3 y4 y5 y6 : (x1 == y1 -> x2 == y2 -> x3 == y3 -> x4 == y4 -> x5 == y5 -> x6 == y6 ->
  same [x1; x2; x3; x4; x5; x6] [y1; y2; y3; y4; y5; y6])%Q.
Proof.
  intros. split; [reflexivity|]. intros i. do 6 (destruct i as [|i]; [cbn; auto|]). destruct i; cbn; reflexivity.
Qed.

(** the ratios a16/a11, a16/a12, a16/a66, a26/a12, a26/a22, a26/a66 in absolute value *)
Definition ratios (a : mat3) : list Q :=
  [Qabs (s16 a / s11 a); Qabs (s16 a / s12 a); Qabs (s16 a / s66 a); Qabs (s26 a / s12 a); Qabs (s26 a / s22 a); Qabs (s26 a / s66 a)]%Q.

(** the matrices built from the lamination parameters are the stiffnesses of the laminate: k times the
    weighted sum of the stiffnesses of the turned plies. The weights are the shares of the thickness for
    A (k = 1), the signed first moments, which add up to 0, for B (k = 1/4), and the second moments
    for D (k = 1/12) *)
Definition laminate_stiffness (m : material) (k : Q) (lam : list (Q * dir)) (A : mat3) : Prop :=
  (s11 A == k * mean (rot11 m) lam /\ s12 A == k * mean (rot12 m) lam /\ s22 A == k * mean (rot22 m) lam /\
   s66 A == k * mean (rot66 m) lam /\ s16 A == k * mean (rot16 m) lam /\ s26 A == k * mean (rot26 m) lam)%Q.
(** four lamination parameters of the laminate, from position [i] *)
Definition parameters_at (i : nat) (l : list Q) (lam : list (Q * dir)) : Prop :=
  (nth i l 0 == mean cos2 lam /\ nth (1 + i) l 0 == mean cos4 lam /\ nth (2 + i) l 0 == mean sin2 lam /\ nth (3 + i) l 0 == mean sin4 lam)%Q.

Lemma mean_lin0 f g h k1 k2 k3 lam : (forall p, In p lam -> f (snd p) == k1 + k2 * g (snd p) + k3 * h (snd p))%Q ->
  (mean f lam == k1 * sumQ (map fst lam) + k2 * mean g lam + k3 * mean h lam)%Q.
Proof. intros E. rewrite <- (mean_affine g h). apply (mean_ext f (fun d => k1 + k2 * g d + k3 * h d)%Q). exact E. Qed.

Theorem C61_laminate : forall args m l la lb ld A B D, mk_material args = Ok m ->
  (forall lam p, In lam [la; lb; ld] -> In p lam -> unit_dir (snd p)) ->
  (sumQ (map fst la) == 1 /\ sumQ (map fst lb) == 0 /\ sumQ (map fst ld) == 1)%Q ->
  parameters_at 0 l la -> parameters_at 4 l lb -> parameters_at 8 l ld ->
  A_of l m = Ok A -> B_of l m = Ok B -> D_of l m = Ok D ->
  laminate_stiffness m 1 la A /\ laminate_stiffness m (1 # 4) lb B /\ laminate_stiffness m (1 # 12) ld D.
Proof.
  intros args m l la lb ld A B D Hm Hu (Sa & Sb & Sd) Pa Pb Pd.
  assert (G : forall lam, (forall p, In p lam -> unit_dir (snd p)) -> let t := sumQ (map fst lam) in
    (mean (rot11 m) lam == U1 m * t + U2 m * mean cos2 lam + U3 m * mean cos4 lam /\ mean (rot22 m) lam == U1 m * t + - U2 m * mean cos2 lam + U3 m * mean cos4 lam /\
     mean (rot12 m) lam == U4 m * t + 0 * mean cos2 lam + - U3 m * mean cos4 lam /\ mean (rot66 m) lam == U5 m * t + 0 * mean cos2 lam + - U3 m * mean cos4 lam /\
     mean (rot16 m) lam == 0 * t + (1 # 2) * U2 m * mean sin2 lam + U3 m * mean sin4 lam /\ mean (rot26 m) lam == 0 * t + (1 # 2) * U2 m * mean sin2 lam + - U3 m * mean sin4 lam)%Q).
  { intros lam U. split; [|split; [|split; [|split; [|split]]]]; apply mean_lin0; intros p Hp;
      destruct (C59_rotated_ply args m (snd p) Hm (U p Hp)) as (R1 & R2 & R3 & R4 & R5 & R6); rewrite ?R1, ?R2, ?R3, ?R4, ?R5, ?R6; ring. }
  destruct (G la ltac:(intros; eapply Hu; [left; reflexivity|eauto])) as (a1 & a2 & a3 & a4 & a5 & a6).
  destruct (G lb ltac:(intros; eapply Hu; [right; left; reflexivity|eauto])) as (b1 & b2 & b3 & b4 & b5 & b6).
  destruct (G ld ltac:(intros; eapply Hu; [right; right; left; reflexivity|eauto])) as (d1 & d2 & d3 & d4 & d5 & d6). clear G Hu.
  rewrite Sa in *. rewrite Sb in *. rewrite Sd in *. destruct Pa as (A0 & A1 & A2 & A3), Pb as (B0 & B1 & B2 & B3), Pd as (D0 & D1 & D2 & D3). cbn [Nat.add] in *.
  assert (T : forall i x, at_ l i = Ok x -> nth i l 0%Q = x) by (unfold at_; intros i x; destruct (nth_error l i) eqn:E; [|discriminate]; intros X; injection X as <-; apply nth_error_nth, E).
  unfold A_of, B_of, D_of.
  repeat (match goal with |- context [at_ l ?i] => let E := fresh in destruct (at_ l i) eqn:E; cbn [bind]; [apply T in E|try discriminate] end).
  all: intros; try discriminate.
  repeat match goal with X : Ok _ = Ok _ |- _ => injection X as <- end.
  unfold laminate_stiffness; cbn [s11 s12 s22 s66 s16 s26].
  repeat match goal with X : nth _ l _ = _ |- _ => rewrite <- X; clear X end.
  rewrite A0, A1, A2, A3, B0, B1, B2, B3, D0, D1, D2, D3, a1, a2, a3, a4, a5, a6, b1, b2, b3, b4, b5, b6, d1, d2, d3, d4, d5, d6.
  repeat split; ring.
Qed.
Print Assumptions C61_laminate.

(** stiffness form of parameters 1 to 6 *)
Theorem C61_stiffness_parameters : forall l mat sy p, ipo_param_1_6 l mat sy = Ok p ->
  exists A, A_of l mat = Ok A /\ same p (ratios A).
Proof.
  intros l mat sy p H. unfold ipo_param_1_6 in H. destruct (A_of l mat) as [A|]; cbn [bind] in H; [|discriminate].
  exists A. split; auto. unfold param_1_6 in H. apply seq6 in H as (x1 & x2 & x3 & x4 & x5 & x6 & e1 & e2 & e3 & e4 & e5 & e6 & ->).
  apply adiv_ok in e1 as [_ ->]. apply adiv_ok in e2 as [_ ->]. apply adiv_ok in e3 as [_ ->].
  apply adiv_ok in e4 as [_ ->]. apply adiv_ok in e5 as [_ ->]. apply adiv_ok in e6 as [_ ->].
  apply same6; reflexivity.
Qed.
Print Assumptions C61_stiffness_parameters.

Lemma cramer A a : compliance A a ->
  let d := det3 (full A) in
  (s22 A * s66 A - s26 A * s26 A == d * s11 a /\ s16 A * s26 A - s12 A * s66 A == d * s12 a /\ s12 A * s26 A - s22 A * s16 A == d * s16 a /\
   s11 A * s66 A - s16 A * s16 A == d * s22 a /\ s12 A * s16 A - s11 A * s26 A == d * s26 a /\ s11 A * s22 A - s12 A * s12 A == d * s66 a)%Q.
Proof.
  unfold compliance, mul3, full, det3. cbn [g00 g01 g02 g10 g11 g12 g20 g21 g22].
  intros (e00 & e01 & e02 & e10 & e11 & e12 & e20 & e21 & e22).
  set (c11 := (s22 A * s66 A - s26 A * s26 A)%Q). set (c12 := (s16 A * s26 A - s12 A * s66 A)%Q). set (c16 := (s12 A * s26 A - s22 A * s16 A)%Q).
  set (c22 := (s11 A * s66 A - s16 A * s16 A)%Q). set (c26 := (s12 A * s16 A - s11 A * s26 A)%Q). set (c66 := (s11 A * s22 A - s12 A * s12 A)%Q).
  split; [|split; [|split; [|split; [|split]]]].
  - transitivity (c11 * (s11 A * s11 a + s12 A * s12 a + s16 A * s16 a) + c12 * (s12 A * s11 a + s22 A * s12 a + s26 A * s16 a) + c16 * (s16 A * s11 a + s26 A * s12 a + s66 A * s16 a))%Q.
    + rewrite e00, e10, e20. ring.
    + unfold c11, c12, c16, c22, c26, c66. ring.
  - transitivity (c11 * (s11 A * s12 a + s12 A * s22 a + s16 A * s26 a) + c12 * (s12 A * s12 a + s22 A * s22 a + s26 A * s26 a) + c16 * (s16 A * s12 a + s26 A * s22 a + s66 A * s26 a))%Q.
    + rewrite e01, e11, e21. ring.
    + unfold c11, c12, c16, c22, c26, c66. ring.
  - transitivity (c11 * (s11 A * s16 a + s12 A * s26 a + s16 A * s66 a) + c12 * (s12 A * s16 a + s22 A * s26 a + s26 A * s66 a) + c16 * (s16 A * s16 a + s26 A * s26 a + s66 A * s66 a))%Q.
    + rewrite e02, e12, e22. ring.
    + unfold c11, c12, c16, c22, c26, c66. ring.
  - transitivity (c12 * (s11 A * s12 a + s12 A * s22 a + s16 A * s26 a) + c22 * (s12 A * s12 a + s22 A * s22 a + s26 A * s26 a) + c26 * (s16 A * s12 a + s26 A * s22 a + s66 A * s26 a))%Q.
    + rewrite e01, e11, e21. ring.
    + unfold c11, c12, c16, c22, c26, c66. ring.
  - transitivity (c12 * (s11 A * s16 a + s12 A * s26 a + s16 A * s66 a) + c22 * (s12 A * s16 a + s22 A * s26 a + s26 A * s66 a) + c26 * (s16 A * s16 a + s26 A * s26 a + s66 A * s66 a))%Q.
    + rewrite e02, e12, e22. ring.
    + unfold c11, c12, c16, c22, c26, c66. ring.
  - transitivity (c16 * (s11 A * s16 a + s12 A * s26 a + s16 A * s66 a) + c26 * (s12 A * s16 a + s22 A * s26 a + s26 A * s66 a) + c66 * (s16 A * s16 a + s26 A * s26 a + s66 A * s66 a))%Q.
    + rewrite e02, e12, e22. ring.
    + unfold c11, c12, c16, c22, c26, c66. ring.
Qed.

Lemma ratio_cancel x y d x' y' : (x == d * x' -> y == d * y' -> ~ y == 0 -> Qabs (x / y) == Qabs (x' / y'))%Q.
Proof.
  intros E F N. assert (N1 : ~ (d == 0)%Q) by (intros Z; apply N; rewrite F, Z; ring).
  assert (N2 : ~ (y' == 0)%Q) by (intros Z; apply N; rewrite F, Z; ring).
  apply Qabs_wd. rewrite E, F. field. auto.
Qed.

(** parameters 7 to 12 of a symmetric laminate are the ratios of its compliances *)
Theorem C61_compliance_parameters : forall l mat p A a, ipo_param_7_12 l mat true = Ok p -> A_of l mat = Ok A -> compliance A a ->
  same p (ratios a).
Proof.
  intros l mat p A a H EA C. unfold ipo_param_7_12 in H. rewrite EA in H. cbn [bind] in H. unfold param_7_12, param_7_12_sym in H.
  destruct (cramer A a C) as (c11 & c12 & c16 & c22 & c26 & c66).
  apply seq6 in H as (x1 & x2 & x3 & x4 & x5 & x6 & e1 & e2 & e3 & e4 & e5 & e6 & ->).
  apply adiv_ok in e1 as [n1 ->]. apply adiv_ok in e2 as [n2 ->]. apply adiv_ok in e3 as [n3 ->].
  apply adiv_ok in e4 as [n4 ->]. apply adiv_ok in e5 as [n5 ->]. apply adiv_ok in e6 as [n6 ->].
  apply same6; eapply ratio_cancel; eauto.
Qed.
Print Assumptions C61_compliance_parameters.

Lemma inv3_ok g i : inv3 g = Ok i -> let d := det3 g in ~ (d == 0)%Q /\
  g02 i = ((g01 g * g12 g - g02 g * g11 g) / d)%Q /\ g00 i = ((g11 g * g22 g - g12 g * g21 g) / d)%Q /\
  g01 i = ((g02 g * g21 g - g01 g * g22 g) / d)%Q /\ g22 i = ((g00 g * g11 g - g01 g * g10 g) / d)%Q /\
  g12 i = ((g02 g * g10 g - g00 g * g12 g) / d)%Q /\ g11 i = ((g00 g * g22 g - g02 g * g20 g) / d)%Q.
Proof.
  unfold inv3. destruct (Qeq_bool (det3 g) 0) eqn:E; [discriminate|]. intros H. injection H as <-. cbn [g00 g01 g02 g10 g11 g12 g20 g21 g22].
  split; [intros X; apply Qeq_eq_bool in X; congruence|]. do 5 (split; [reflexivity|]). reflexivity.
Qed.

Lemma at_nth l i x : at_ l i = Ok x -> x = nth i l 0%Q.
Proof. unfold at_. destruct (nth_error l i) eqn:E; [|discriminate]. intros H. injection H as <-. symmetry. apply nth_error_nth, E. Qed.

Lemma inv3_det g : ~ (det3 g == 0)%Q -> exists i, inv3 g = Ok i.
Proof. intros N. unfold inv3. destruct (Qeq_bool (det3 g) 0) eqn:E; [apply Qeq_bool_eq in E; contradiction|eauto]. Qed.

Lemma adiv_nz x y : ~ (y == 0)%Q -> adiv x y = Ok (Qabs (x / y)).
Proof. intros N. unfold adiv. rewrite qdiv_nz by auto. reflexivity. Qed.

(** for a laminate without coupling (parameters 4 to 7 null) and of invertible stiffnesses the symmetry flag does not matter *)
Theorem C61_flag : forall l mat p A D, (forall i, (4 <= i < 8)%nat -> nth i l 0 == 0)%Q -> length l = 12%nat ->
  A_of l mat = Ok A -> D_of l mat = Ok D -> ~ (det3 (full A) == 0)%Q -> ~ (det3 (full D) == 0)%Q ->
  ipo_param_7_12 l mat true = Ok p -> exists q, ipo_param_7_12 l mat false = Ok q /\ same p q.
Proof.
  intros l mat p A D Z LL EA ED NA ND H. unfold ipo_param_7_12, param_7_12 in *. rewrite EA, ED in *. cbn [bind] in *.
  assert (EB : exists B, B_of l mat = Ok B).
  { unfold B_of, at_. destruct l as [|? [|? [|? [|? [|? [|? [|? [|? l]]]]]]]]; cbn in LL; try discriminate LL. cbn [nth_error bind]. eauto. }
  destruct EB as [B EB].
  rewrite EB. cbn [bind].
  assert (BZ : (s11 B == 0 /\ s12 B == 0 /\ s22 B == 0 /\ s66 B == 0 /\ s16 B == 0 /\ s26 B == 0)%Q).
  { unfold B_of in EB. destruct (at_ l 4) as [l4|] eqn:E4; cbn [bind] in EB; [|discriminate]. destruct (at_ l 5) as [l5|] eqn:E5; cbn [bind] in EB; [|discriminate].
    destruct (at_ l 6) as [l6|] eqn:E6; cbn [bind] in EB; [|discriminate]. destruct (at_ l 7) as [l7|] eqn:E7; cbn [bind] in EB; [|discriminate].
    apply at_nth in E4, E5, E6, E7. injection EB as <-. cbn [s11 s12 s22 s66 s16 s26]. subst.
    rewrite (Z 4%nat), (Z 5%nat), (Z 6%nat), (Z 7%nat) by lia. repeat split; ring. }
  clear EA ED EB Z. destruct BZ as (b11 & b12 & b22 & b66 & b16 & b26).
  unfold param_7_12_gen. destruct (inv3_det _ ND) as [di ->]. cbn [bind].
  set (S := sub3 (full A) (mul3 (mul3 (full B) di) (full B))).
  assert (SA : (g00 S == s11 A /\ g01 S == s12 A /\ g02 S == s16 A /\ g10 S == s12 A /\ g11 S == s22 A /\ g12 S == s26 A /\ g20 S == s16 A /\ g21 S == s26 A /\ g22 S == s66 A)%Q).
  { unfold S, sub3, mul3, full. cbn [g00 g01 g02 g10 g11 g12 g20 g21 g22]. rewrite b11, b12, b22, b66, b16, b26. repeat split; ring. }
  clearbody S. destruct SA as (a00 & a01 & a02 & a10 & a11 & a12 & a20 & a21 & a22).
  assert (DS : ~ (det3 S == 0)%Q).
  { intros X. apply NA. rewrite <- X. unfold det3, full. cbn [g00 g01 g02 g10 g11 g12 g20 g21 g22]. rewrite a00, a01, a02, a10, a11, a12, a20, a21, a22. reflexivity. }
  destruct (inv3_det _ DS) as [a EI]. rewrite EI. cbn [bind]. apply inv3_ok in EI as (_ & i02 & i00 & i01 & i22 & i12 & i11).
  unfold param_7_12_sym in H. set (d := (det3 S)) in *. clearbody d.
  apply seq6 in H as (x1 & x2 & x3 & x4 & x5 & x6 & e1 & e2 & e3 & e4 & e5 & e6 & ->).
  apply adiv_ok in e1 as [n1 ->]. apply adiv_ok in e2 as [n2 ->]. apply adiv_ok in e3 as [n3 ->].
  apply adiv_ok in e4 as [n4 ->]. apply adiv_ok in e5 as [n5 ->]. apply adiv_ok in e6 as [n6 ->].
  assert (DZ : forall u v, (u == v -> ~ v == 0 -> ~ u / d == 0)%Q).
  { intros u v E N X. apply N. rewrite <- E. transitivity (u / d * d)%Q; [field; auto|rewrite X; ring]. }
  assert (z00 : ~ (g00 a == 0)%Q) by (rewrite i00; apply (DZ _ _) with (2 := n1); rewrite a11, a22, a12, a21; ring).
  assert (z01 : ~ (g01 a == 0)%Q) by (rewrite i01; apply (DZ _ _) with (2 := n2); rewrite a02, a21, a01, a22; ring).
  assert (z22 : ~ (g22 a == 0)%Q) by (rewrite i22; apply (DZ _ _) with (2 := n3); rewrite a00, a11, a01, a10; ring).
  assert (z11 : ~ (g11 a == 0)%Q) by (rewrite i11; apply (DZ _ _) with (2 := n5); rewrite a00, a22, a02, a20; ring).
  rewrite !adiv_nz by auto.
  cbn [sequence bind]. eexists. split; [reflexivity|].
  rewrite i02, i00, i01, i22, i12, i11.
  assert (G : forall x y u v, (x == u -> y == v -> ~ y == 0 -> Qabs (x / y) == Qabs ((u / d) / (v / d)))%Q).
  { intros x y u v X Y N. apply (ratio_cancel x y d); [rewrite X; field; auto|rewrite Y; field; auto|auto]. }
  apply same6; apply G; auto; rewrite ?a00, ?a01, ?a02, ?a10, ?a11, ?a12, ?a20, ?a21, ?a22; ring.
Qed.
Print Assumptions C61_flag.

(* ------------------------------------------------------------------ *)
(** * the general laminate *)

Definition meq (a b : gen3) : Prop :=
  (g00 a == g00 b /\ g01 a == g01 b /\ g02 a == g02 b /\ g10 a == g10 b /\ g11 a == g11 b /\ g12 a == g12 b /\ g20 a == g20 b /\ g21 a == g21 b /\ g22 a == g22 b)%Q.
Definition add3 (a b : gen3) : gen3 :=
  {| g00 := (g00 a + g00 b)%Q; g01 := (g01 a + g01 b)%Q; g02 := (g02 a + g02 b)%Q;
     g10 := (g10 a + g10 b)%Q; g11 := (g11 a + g11 b)%Q; g12 := (g12 a + g12 b)%Q;
     g20 := (g20 a + g20 b)%Q; g21 := (g21 a + g21 b)%Q; g22 := (g22 a + g22 b)%Q |}.
Definition one3 : gen3 := {| g00 := 1; g01 := 0; g02 := 0; g10 := 0; g11 := 1; g12 := 0; g20 := 0; g21 := 0; g22 := 1 |}%Q.
Definition zero3 : gen3 := {| g00 := 0; g01 := 0; g02 := 0; g10 := 0; g11 := 0; g12 := 0; g20 := 0; g21 := 0; g22 := 0 |}%Q.

(** [a] and [b]: mid-plane strains and curvatures under unit membrane loads and no moment *)
Definition membrane_response (A B D : mat3) (a b : gen3) : Prop :=
  meq (add3 (mul3 (full A) a) (mul3 (full B) b)) one3 /\ meq (add3 (mul3 (full B) a) (mul3 (full D) b)) zero3.

Ltac nine := repeat match goal with |- _ /\ _ => split end.
Lemma meq_sym a b : meq a b -> meq b a.
Proof. unfold meq. intros (h1 & h2 & h3 & h4 & h5 & h6 & h7 & h8 & h9). nine; symmetry; auto. Qed.
Lemma meq_trans a b c : meq a b -> meq b c -> meq a c.
Proof.
  unfold meq. intros (h1 & h2 & h3 & h4 & h5 & h6 & h7 & h8 & h9) (k1 & k2 & k3 & k4 & k5 & k6 & k7 & k8 & k9).
  nine; etransitivity; eauto.
Qed.
Lemma mul3_assoc a b c : meq (mul3 (mul3 a b) c) (mul3 a (mul3 b c)).
Proof. unfold meq, mul3. cbn [g00 g01 g02 g10 g11 g12 g20 g21 g22]. nine; ring. Qed.
Lemma mul3_wd a b c d : meq a b -> meq c d -> meq (mul3 a c) (mul3 b d).
Proof.
  unfold meq. intros (h1 & h2 & h3 & h4 & h5 & h6 & h7 & h8 & h9) (k1 & k2 & k3 & k4 & k5 & k6 & k7 & k8 & k9).
  unfold mul3. cbn [g00 g01 g02 g10 g11 g12 g20 g21 g22]. rewrite h1, h2, h3, h4, h5, h6, h7, h8, h9, k1, k2, k3, k4, k5, k6, k7, k8, k9. nine; reflexivity.
Qed.
Lemma sub3_wd a b c d : meq a b -> meq c d -> meq (sub3 a c) (sub3 b d).
Proof.
  unfold meq. intros (h1 & h2 & h3 & h4 & h5 & h6 & h7 & h8 & h9) (k1 & k2 & k3 & k4 & k5 & k6 & k7 & k8 & k9).
  unfold sub3. cbn [g00 g01 g02 g10 g11 g12 g20 g21 g22]. rewrite h1, h2, h3, h4, h5, h6, h7, h8, h9, k1, k2, k3, k4, k5, k6, k7, k8, k9. nine; reflexivity.
Qed.
Lemma meq_refl a : meq a a.
Proof. unfold meq. nine; reflexivity. Qed.
Lemma mul3_one_r a : meq (mul3 a one3) a.
Proof. unfold meq, mul3, one3. cbn [g00 g01 g02 g10 g11 g12 g20 g21 g22]. nine; ring. Qed.
Lemma mul3_one_l a : meq (mul3 one3 a) a.
Proof. unfold meq, mul3, one3. cbn [g00 g01 g02 g10 g11 g12 g20 g21 g22]. nine; ring. Qed.

Lemma inv3_left g i : inv3 g = Ok i -> meq (mul3 i g) one3.
Proof.
  unfold inv3. destruct (Qeq_bool (det3 g) 0) eqn:E; [discriminate|]. intros H. injection H as <-.
  assert (N : ~ (det3 g == 0)%Q) by (intros X; apply Qeq_eq_bool in X; congruence).
  unfold meq, mul3, one3. cbn [g00 g01 g02 g10 g11 g12 g20 g21 g22].
  nine; apply (Qmult_inj_r _ _ (det3 g) N); unfold det3 in *; field; exact N.
Qed.

Lemma inv3_unique g i a : inv3 g = Ok i -> meq (mul3 g a) one3 -> meq i a.
Proof.
  intros H K. apply inv3_left in H.
  apply meq_trans with (mul3 i one3); [apply meq_sym, mul3_one_r|].
  apply meq_trans with (mul3 i (mul3 g a)); [apply mul3_wd; [apply meq_refl|apply meq_sym, K]|].
  apply meq_trans with (mul3 (mul3 i g) a); [apply meq_sym, mul3_assoc|].
  apply meq_trans with (mul3 one3 a); [apply mul3_wd; [exact H|apply meq_refl]|apply mul3_one_l].
Qed.

Lemma add3_wd a b c d : meq a b -> meq c d -> meq (add3 a c) (add3 b d).
Proof.
  unfold meq. intros (h1 & h2 & h3 & h4 & h5 & h6 & h7 & h8 & h9) (k1 & k2 & k3 & k4 & k5 & k6 & k7 & k8 & k9).
  unfold add3. cbn [g00 g01 g02 g10 g11 g12 g20 g21 g22]. rewrite h1, h2, h3, h4, h5, h6, h7, h8, h9, k1, k2, k3, k4, k5, k6, k7, k8, k9. nine; reflexivity.
Qed.
Lemma mul3_add_r a b c : meq (mul3 a (add3 b c)) (add3 (mul3 a b) (mul3 a c)).
Proof. unfold meq, mul3, add3. cbn [g00 g01 g02 g10 g11 g12 g20 g21 g22]. nine; ring. Qed.
Lemma mul3_sub_l a b c : meq (mul3 (sub3 a b) c) (sub3 (mul3 a c) (mul3 b c)).
Proof. unfold meq, mul3, sub3. cbn [g00 g01 g02 g10 g11 g12 g20 g21 g22]. nine; ring. Qed.
Lemma mul3_zero_r a : meq (mul3 a zero3) zero3.
Proof. unfold meq, mul3, zero3. cbn [g00 g01 g02 g10 g11 g12 g20 g21 g22]. nine; ring. Qed.
Lemma sub_add a x y : meq (add3 x y) zero3 -> meq (sub3 a x) (add3 a y).
Proof.
  unfold meq, sub3, add3, zero3. cbn [g00 g01 g02 g10 g11 g12 g20 g21 g22]. intros (h1 & h2 & h3 & h4 & h5 & h6 & h7 & h8 & h9). nine; lra.
Qed.

Lemma schur (A B D a b di : gen3) : meq (mul3 di D) one3 -> meq (add3 (mul3 A a) (mul3 B b)) one3 -> meq (add3 (mul3 B a) (mul3 D b)) zero3 ->
  meq (mul3 (sub3 A (mul3 (mul3 B di) B)) a) one3.
Proof.
  intros HD H1 H2. eapply meq_trans; [apply mul3_sub_l|]. eapply meq_trans; [|exact H1]. apply sub_add.
  (* B di B a + B b = B di (B a + D b) = 0 *)
  apply meq_trans with (mul3 (mul3 B di) (add3 (mul3 B a) (mul3 D b))).
  - apply meq_sym. eapply meq_trans; [apply mul3_add_r|]. apply add3_wd; [apply meq_sym, mul3_assoc|].
    eapply meq_trans; [apply mul3_assoc|]. apply mul3_wd; [apply meq_refl|]. eapply meq_trans; [apply meq_sym, mul3_assoc|].
    eapply meq_trans; [apply mul3_wd; [exact HD|apply meq_refl]|apply mul3_one_l].
  - eapply meq_trans; [apply mul3_wd; [apply meq_refl|exact H2]|apply mul3_zero_r].
Qed.

(** the ratios of the membrane response of any laminate *)
Definition ratios_gen (a : gen3) : list Q :=
  [Qabs (g02 a / g00 a); Qabs (g02 a / g01 a); Qabs (g02 a / g22 a); Qabs (g12 a / g01 a); Qabs (g12 a / g11 a); Qabs (g12 a / g22 a)]%Q.

Theorem C61_general_parameters : forall l mat p A B D a b, ipo_param_7_12 l mat false = Ok p ->
  A_of l mat = Ok A -> B_of l mat = Ok B -> D_of l mat = Ok D -> membrane_response A B D a b -> same p (ratios_gen a).
Proof.
  intros l mat p A B D a b H EA EB ED R. unfold ipo_param_7_12, param_7_12 in H. rewrite EA, EB, ED in H. cbn [bind] in H. unfold param_7_12_gen in H.
  destruct (inv3 (full D)) as [di|] eqn:ID; cbn [bind] in H; [|discriminate]. apply inv3_left in ID.
  destruct (inv3 _) as [i|] eqn:IS in H; cbn [bind] in H; [|discriminate].
  pose proof (inv3_unique _ _ _ IS (schur (full A) (full B) (full D) a b di ID (proj1 R) (proj2 R))) as (k1 & k2 & k3 & k4 & k5 & k6 & k7 & k8 & k9).
  apply seq6 in H as (x1 & x2 & x3 & x4 & x5 & x6 & e1 & e2 & e3 & e4 & e5 & e6 & ->).
  apply adiv_ok in e1 as [n1 ->]. apply adiv_ok in e2 as [n2 ->]. apply adiv_ok in e3 as [n3 ->].
  apply adiv_ok in e4 as [n4 ->]. apply adiv_ok in e5 as [n5 ->]. apply adiv_ok in e6 as [n6 ->].
  apply same6; apply Qabs_wd; rewrite ?k1, ?k2, ?k3, ?k5, ?k6, ?k9; reflexivity.
Qed.
Print Assumptions C61_general_parameters.

(** the twelve parameters are the first six followed by the last six *)
Theorem C61_twelve : forall l mat sy p, ipo_param_1_12 l mat sy = Ok p <->
  exists a b, ipo_param_1_6 l mat sy = Ok a /\ ipo_param_7_12 l mat sy = Ok b /\ p = a ++ b /\ length a = 6%nat /\ length b = 6%nat.
Proof.
  intros l mat sy p. unfold ipo_param_1_12, ipo_param_1_6, ipo_param_7_12. destruct (A_of l mat) as [A|]; cbn [bind].
  2:{ split; [discriminate|]. intros (a & b & H & _). discriminate H. }
  assert (L1 : forall a, param_1_6 A = Ok a -> length a = 6%nat).
  { intros a H. apply seq6 in H as (? & ? & ? & ? & ? & ? & _ & _ & _ & _ & _ & _ & ->). reflexivity. }
  assert (L2 : forall b, param_7_12 l mat sy A = Ok b -> length b = 6%nat).
  { intros b H. unfold param_7_12 in H. destruct sy.
    - apply seq6 in H as (? & ? & ? & ? & ? & ? & _ & _ & _ & _ & _ & _ & ->). reflexivity.
    - destruct (B_of l mat); cbn [bind] in H; [|discriminate]. destruct (D_of l mat); cbn [bind] in H; [|discriminate]. unfold param_7_12_gen in H.
      destruct (inv3 _); cbn [bind] in H; [|discriminate]. destruct (inv3 _) in H; cbn [bind] in H; [|discriminate].
      apply seq6 in H as (? & ? & ? & ? & ? & ? & _ & _ & _ & _ & _ & _ & ->). reflexivity. }
  destruct (param_1_6 A) as [a|]; cbn [bind].
  2:{ split; [discriminate|]. intros (a & b & H & _). discriminate H. }
  destruct (param_7_12 l mat sy A) as [b|]; cbn [bind].
  - split.
    + intros H. injection H as <-. exists a, b. auto 6.
    + intros (a' & b' & H & K & -> & _). congruence.
  - split; [discriminate|]. intros (a' & b' & _ & K & _). discriminate K.
Qed.
Print Assumptions C61_twelve.

Definition all_zero (l : list Q) : Prop := forall x, In x l -> (x == 0)%Q.

Lemma abs_ratio_zero x y : (x == 0)%Q -> (Qabs (x / y) == 0)%Q.
Proof. intros E. rewrite E. unfold Qdiv. rewrite Qmult_0_l. reflexivity. Qed.

Lemma all_zero6 x1 x2 x3 x4 x5 x6 : (x1 == 0 -> x2 == 0 -> x3 == 0 -> x4 == 0 -> x5 == 0 -> x6 == 0 -> all_zero [x1; x2; x3; x4; x5; x6])%Q.
Proof. intros h1 h2 h3 h4 h5 h6 x H. cbn in H. destruct H as [<-|[<-|[<-|[<-|[<-|[<-|[]]]]]]]; auto. Qed.

(** parameters 1 to 6 vanish exactly when the lamination parameters V3 and V4 do (U2, U3 not null) *)
Theorem C61_orthotropic : forall l mat sy p, ~ (U2 mat == 0)%Q -> ~ (U3 mat == 0)%Q -> ipo_param_1_6 l mat sy = Ok p ->
  (all_zero p <-> (nth 2 l 0 == 0 /\ nth 3 l 0 == 0)%Q).
Proof.
  intros l mat sy p N2 N3 H. unfold ipo_param_1_6 in H. destruct (A_of l mat) as [A|] eqn:EA; cbn [bind] in H; [|discriminate].
  unfold A_of in EA. destruct (at_ l 0) as [l0|] eqn:E0; cbn [bind] in EA; [|discriminate]. destruct (at_ l 1) as [l1|] eqn:E1; cbn [bind] in EA; [|discriminate].
  destruct (at_ l 2) as [l2|] eqn:E2; cbn [bind] in EA; [|discriminate]. destruct (at_ l 3) as [l3|] eqn:E3; cbn [bind] in EA; [|discriminate].
  apply at_nth in E2, E3. rewrite <- E2, <- E3. clear E0 E1 E2 E3. unfold param_1_6 in H.
  apply seq6 in H as (x1 & x2 & x3 & x4 & x5 & x6 & e1 & e2 & e3 & e4 & e5 & e6 & ->).
  apply adiv_ok in e1 as [n1 ->]. apply adiv_ok in e2 as [n2 ->]. apply adiv_ok in e3 as [n3 ->].
  apply adiv_ok in e4 as [n4 ->]. apply adiv_ok in e5 as [n5 ->]. apply adiv_ok in e6 as [n6 ->].
  injection EA as <-. cbn [s11 s12 s22 s66 s16 s26] in *. split.
  - intros Z. pose proof (Z _ (or_introl eq_refl)) as Z1. pose proof (Z _ (or_intror (or_intror (or_intror (or_introl eq_refl))))) as Z2.
    assert (F : forall x y, ~ (y == 0)%Q -> (Qabs (x / y) == 0)%Q -> (x == 0)%Q).
    { intros x y N E. assert (E' : (x / y == 0)%Q) by (revert E; apply Qabs_case; intros; lra). clear E. rename E' into E.
      transitivity ((x / y) * y)%Q; [field; auto|rewrite E; ring]. }
    apply F in Z1; auto. apply F in Z2; auto. clear -Z1 Z2 N2 N3.
    assert (Y1 : (U2 mat * l2 == 0)%Q) by lra. assert (Y2 : (U3 mat * l3 == 0)%Q) by lra.
    apply Qmult_integral in Y1, Y2. split; tauto.
  - intros [Z2 Z3]. assert (Y1 : ((1 # 2) * U2 mat * l2 + U3 mat * l3 == 0)%Q) by (rewrite Z2, Z3; ring).
    assert (Y2 : ((1 # 2) * U2 mat * l2 - U3 mat * l3 == 0)%Q) by (rewrite Z2, Z3; ring).
    apply all_zero6; apply abs_ratio_zero; auto.
Qed.
Print Assumptions C61_orthotropic.

(** a symmetric laminate with V3 = V4 = 0: all twelve parameters vanish *)
Theorem C61_balanced_symmetric : forall l mat p, (nth 2 l 0 == 0)%Q -> (nth 3 l 0 == 0)%Q -> ipo_param_1_12 l mat true = Ok p -> all_zero p.
Proof.
  intros l mat p Z2 Z3 H. unfold ipo_param_1_12 in H. destruct (A_of l mat) as [A|] eqn:EA; cbn [bind] in H; [|discriminate].
  assert (AZ : (s16 A == 0 /\ s26 A == 0)%Q).
  { unfold A_of in EA. destruct (at_ l 0) as [l0|] eqn:E0; cbn [bind] in EA; [|discriminate]. destruct (at_ l 1) as [l1|] eqn:E1; cbn [bind] in EA; [|discriminate].
    destruct (at_ l 2) as [l2|] eqn:E2; cbn [bind] in EA; [|discriminate]. destruct (at_ l 3) as [l3|] eqn:E3; cbn [bind] in EA; [|discriminate].
    apply at_nth in E2, E3. subst l2 l3. injection EA as <-. cbn [s16 s26]. rewrite Z2, Z3. split; ring. }
  destruct AZ as [Z16 Z26]. unfold param_7_12 in H.
  destruct (param_1_6 A) as [a|] eqn:Ea; cbn [bind] in H; [|discriminate]. destruct (param_7_12_sym A) as [b|] eqn:Eb; cbn [bind] in H; [|discriminate].
  injection H as <-. intros x Hx. apply in_app_or in Hx as [Hx|Hx]; revert x Hx.
  - unfold param_1_6 in Ea. apply seq6 in Ea as (x1 & x2 & x3 & x4 & x5 & x6 & e1 & e2 & e3 & e4 & e5 & e6 & ->).
    apply adiv_ok in e1 as [n1 ->]. apply adiv_ok in e2 as [n2 ->]. apply adiv_ok in e3 as [n3 ->].
    apply adiv_ok in e4 as [n4 ->]. apply adiv_ok in e5 as [n5 ->]. apply adiv_ok in e6 as [n6 ->].
    apply all_zero6; apply abs_ratio_zero; auto.
  - unfold param_7_12_sym in Eb. apply seq6 in Eb as (x1 & x2 & x3 & x4 & x5 & x6 & e1 & e2 & e3 & e4 & e5 & e6 & ->).
    apply adiv_ok in e1 as [n1 ->]. apply adiv_ok in e2 as [n2 ->]. apply adiv_ok in e3 as [n3 ->].
    apply adiv_ok in e4 as [n4 ->]. apply adiv_ok in e5 as [n5 ->]. apply adiv_ok in e6 as [n6 ->].
    apply all_zero6; apply abs_ratio_zero; rewrite Z16, Z26; ring.
Qed.
Print Assumptions C61_balanced_symmetric.

(** a concrete case: carbon-epoxy, [45/-45/0/90]s and [45/0]s *)
Definition carbon : margs := {| a_E11 := 130; a_E22 := 9; a_nu12 := 3 # 10; a_G12 := 4; a_dv := 0; a_da := 300; a_t := 1 # 5 |}%Q.

(** hypotheses of [C61_laminate]: two plies of orientations 0 and arcsin(4/5), the second one on top *)
Theorem C61_laminate_example : let d0 := {| co := 1; si := 0 |}%Q in let d1 := {| co := 3 # 5; si := 4 # 5 |}%Q in
  let la := [(1 # 2, d0); (1 # 2, d1)]%Q in let lb := [(- (1), d0); (1, d1)]%Q in
  let l := (map (fun f => mean f la) [cos2; cos4; sin2; sin4] ++ map (fun f => mean f lb) [cos2; cos4; sin2; sin4] ++ map (fun f => mean f la) [cos2; cos4; sin2; sin4]) in
  exists m A B D, mk_material carbon = Ok m /\ (forall lam p, In lam [la; lb; la] -> In p lam -> unit_dir (snd p)) /\
  (sumQ (map fst la) == 1 /\ sumQ (map fst lb) == 0 /\ sumQ (map fst la) == 1)%Q /\
  parameters_at 0 l la /\ parameters_at 4 l lb /\ parameters_at 8 l la /\ A_of l m = Ok A /\ B_of l m = Ok B /\ D_of l m = Ok D /\ ~ (s16 B == 0)%Q.
Proof.
  intros d0 d1 la lb l. destruct (mk_material carbon) as [m|] eqn:E; [|vm_compute in E; discriminate]. exists m. do 3 eexists. split; [reflexivity|].
  split. { intros lam p [<-|[<-|[<-|[]]]] [<-|[<-|[]]]; reflexivity. }
  split; [repeat split; reflexivity|]. do 3 (split; [repeat split; reflexivity|]). do 3 (split; [unfold A_of, B_of, D_of; reflexivity|]).
  vm_compute in E. injection E as <-. discriminate.
Qed.

Definition uncoupled : list Q := [1 # 2; 0; 1 # 2; 0; 0; 0; 0; 0; 1 # 8; 0; 1 # 2; 0]%Q.

Theorem C61_example : exists mat, mk_material carbon = Ok mat /\ ~ (U2 mat == 0)%Q /\ ~ (U3 mat == 0)%Q /\
  (exists p, ipo_param_1_12 [0; 0; 0; 0; 0; 0; 0; 0; 1 # 4; 1 # 8; 1 # 8; 0]%Q mat true = Ok p /\ length p = 12%nat) /\
  (exists p A D, ipo_param_7_12 uncoupled mat true = Ok p /\ A_of uncoupled mat = Ok A /\ D_of uncoupled mat = Ok D /\
     ~ (det3 (full A) == 0)%Q /\ ~ (det3 (full D) == 0)%Q /\ (0 < nth 0 p 0)%Q /\
     (exists q, ipo_param_7_12 uncoupled mat false = Ok q /\ same p q)).
Proof.
  destruct (mk_material carbon) as [mat|] eqn:E; [|vm_compute in E; discriminate]. vm_compute in E. injection E as <-.
  eexists. split; [reflexivity|]. split; [vm_compute; discriminate|]. split; [vm_compute; discriminate|]. split.
  - eexists. split; [vm_compute; reflexivity|reflexivity].
  - do 3 eexists. split; [vm_compute; reflexivity|]. split; [reflexivity|]. split; [reflexivity|].
    split; [vm_compute; discriminate|]. split; [vm_compute; discriminate|]. split; [vm_compute; reflexivity|].
    eapply C61_flag; [| |reflexivity|reflexivity|vm_compute; discriminate|vm_compute; discriminate|vm_compute; reflexivity]; [|reflexivity].
    intros i Hi. do 8 (destruct i as [|i]; [try lia; reflexivity|]). lia.
Qed.

(** non-vacuity of the compliance: a unit stiffness *)
Theorem C61_compliance_example : let A := {| s11 := 2; s12 := 0; s22 := 1; s66 := 1; s16 := 1; s26 := 0 |}%Q in
  let a := {| s11 := 1; s12 := 0; s22 := 1; s66 := 2; s16 := -1; s26 := 0 |}%Q in compliance A a /\ membrane_response A A {| s11 := 10; s12 := 0; s22 := 2; s66 := 4; s16 := 6; s26 := 0 |}%Q
    {| g00 := -2; g01 := 0; g02 := 4; g10 := 0; g11 := 2; g12 := 0; g20 := 4; g21 := 0; g22 := -6 |}%Q
    {| g00 := 3; g01 := 0; g02 := -5; g10 := 0; g11 := -1; g12 := 0; g20 := -5; g21 := 0; g22 := 8 |}%Q.
Proof. vm_compute. repeat split; reflexivity. Qed.

(* ------------------------------------------------------------------ *)
(** * C62: the orthotropy penalties *)

Lemma half_sum_iff l i j x : half_sum l i j = Ok x <-> (i < length l)%nat /\ (j < length l)%nat /\ x = ((Qabs (nth i l 0) + Qabs (nth j l 0)) / 2)%Q.
Proof.
  unfold half_sum, at_. split.
  - destruct (nth_error l i) as [u|] eqn:E; cbn [bind]; [|discriminate]. destruct (nth_error l j) as [v|] eqn:F; cbn [bind]; [|discriminate].
    intros H. injection H as <-. rewrite (nth_error_nth _ _ _ E), (nth_error_nth _ _ _ F).
    split; [apply nth_error_Some; congruence|]. split; [apply nth_error_Some; congruence|reflexivity].
  - intros (H & K & ->). rewrite (nth_error_nth' _ 0%Q H), (nth_error_nth' _ 0%Q K). reflexivity.
Qed.

Lemma half_zero u v : ((Qabs u + Qabs v) / 2 == 0 <-> u == 0 /\ v == 0)%Q.
Proof.
  pose proof (Qabs_nonneg u). pose proof (Qabs_nonneg v).
  assert (F : forall x, (Qabs x == 0 -> x == 0)%Q) by (intros x; apply Qabs_case; intros; lra).
  unfold Qdiv. split.
  - intros E. change (/ 2)%Q with (1 # 2)%Q in E. split; apply F; lra.
  - intros [E1 E2]. rewrite E1, E2. reflexivity.
Qed.

(** the measure of non-orthotropy: mean of the absolute values of two lamination parameters *)
Definition non_ortho (u v : Q) : Q := ((Qabs u + Qabs v) / 2)%Q.

(** balance penalty of one laminate *)
Theorem C62_ipo : forall l w, (4 <= length l)%nat ->
  exists x, calc_penalty_ipo l w = Ok x /\ (x == w * non_ortho (nth 2 l 0) (nth 3 l 0))%Q /\
    ((0 <= w)%Q -> (0 <= x)%Q) /\ ((0 < w)%Q -> (x == 0 <-> nth 2 l 0 == 0 /\ nth 3 l 0 == 0)%Q).
Proof.
  intros l w L. unfold calc_penalty_ipo. rewrite (proj2 (half_sum_iff l 2 3 _)) by (split; [lia|split; [lia|reflexivity]]). cbn [bind].
  eexists. split; [reflexivity|]. split; [reflexivity|].
  assert (N : (0 <= (Qabs (nth 2 l 0) + Qabs (nth 3 l 0)) / 2)%Q).
  { pose proof (Qabs_nonneg (nth 2 l 0%Q)). pose proof (Qabs_nonneg (nth 3 l 0%Q)). unfold Qdiv. change (/ 2)%Q with (1 # 2)%Q. lra. }
  split; [intros W; apply Qmult_le_0_compat; auto|]. intros W. rewrite <- half_zero. split.
  - intros Z. apply Qmult_integral in Z as [Z|Z]; [lra|exact Z].
  - intros Z. rewrite Z. ring.
Qed.
Print Assumptions C62_ipo.

Lemma nth_error_at l k : forall x, at_ l k = Ok x <-> nth_error l k = Some x.
Proof. intros x. unfold at_. destruct (nth_error l k); split; congruence. Qed.

Lemma sequence_rows {A B} (f : A -> result B) l r : sequence (map f l) = Ok r <->
  length r = length l /\ forall k x y, nth_error l k = Some x -> nth_error r k = Some y -> f x = Ok y.
Proof.
  revert r. induction l as [|x l IH]; intros r; cbn [map sequence].
  - split.
    + intros H. injection H as <-. split; [reflexivity|]. intros [|k] x y H; discriminate.
    + intros [H _]. destruct r; [reflexivity|discriminate].
  - destruct (f x) as [y|] eqn:E; cbn [bind].
    + split.
      * destruct (sequence (map f l)) as [ys|] eqn:F; cbn [bind]; [|discriminate]. intros H. injection H as <-.
        destruct (proj1 (IH ys) eq_refl) as [L G]. split; [cbn; congruence|]. intros [|k] u v; cbn [nth_error]; [congruence|apply G].
      * intros [L G]. destruct r as [|y' r]; [discriminate|]. pose proof (G 0%nat x y' eq_refl eq_refl).
        rewrite (proj2 (IH r)); [cbn [bind]; congruence|]. split; [cbn in L; lia|]. intros k u v H1 H2. exact (G (S k) u v H1 H2).
    + split; [discriminate|]. intros [L G]. destruct r as [|y' r]; [discriminate|]. pose proof (G 0%nat x y' eq_refl eq_refl). congruence.
Qed.

(** one penalty per panel, each that of the panel alone *)
Theorem C62_ipo_rows : forall rows w r, calc_penalty_ipo_rows rows w = Ok r <->
  length r = length rows /\ forall k l x, nth_error rows k = Some l -> nth_error r k = Some x -> calc_penalty_ipo l w = Ok x.
Proof.
  intros rows w r. unfold calc_penalty_ipo_rows, calc_penalty_ipo.
  rewrite <- (sequence_rows (fun l => do p <- half_sum l 2 3; Ok (w * p)%Q)). 
  assert (G : sequence (map (fun l => do p <- half_sum l 2 3; Ok (w * p)%Q) rows) =
              do p <- sequence (map (fun l => half_sum l 2 3) rows); Ok (map (fun x => (w * x)%Q) p)).
  { induction rows as [|l rows IH]; [reflexivity|]. cbn [map sequence]. destruct (half_sum l 2 3); cbn [bind]; [|reflexivity].
    rewrite IH. destruct (sequence (map (fun l => half_sum l 2 3) rows)); reflexivity. }
  rewrite G. reflexivity.
Qed.
Print Assumptions C62_ipo_rows.

(** the penalties of a multi-panel structure, when no parameters are passed *)
Theorem C62_multi_panel_partial : forall rows c switch wa wm, (forall l, In l rows -> length l = 12%nat) ->
  exists i o, calc_penalty_ipo_oopo_mp rows c switch false wa wm = Ok (i, o) /\ length i = length rows /\ length o = length rows /\
  forall k l, nth_error rows k = Some l ->
    (nth k i 0 == (if (ipo c && switch)%bool then wa * non_ortho (nth 2 l 0) (nth 3 l 0) else 0))%Q /\
    (nth k o 0 == (if oopo c then wm * non_ortho (nth 10 l 0) (nth 11 l 0) else 0))%Q.
Proof.
  intros rows c sw wa wm L. unfold calc_penalty_ipo_oopo_mp.
  assert (G : forall (b : bool) m n, (m < 12)%nat -> (n < 12)%nat ->
    sequence (map (fun l => if b then half_sum l m n else Ok 0%Q) rows) = Ok (map (fun l => if b then non_ortho (nth m l 0%Q) (nth n l 0%Q) else 0%Q) rows)).
  { intros b m n Hm Hn. apply sequence_rows. split; [apply map_length|]. intros k l y Hl Hy. rewrite nth_error_map, Hl in Hy. cbn in Hy. injection Hy as <-.
    assert (length l = 12%nat) by (apply L; eapply nth_error_In; eauto). destruct b; [|reflexivity]. apply half_sum_iff. split; [lia|split; [lia|reflexivity]]. }
  rewrite (G (ipo c && sw)%bool 2%nat 3%nat), (G (oopo c) 10%nat 11%nat) by lia. cbn [bind].
  do 2 eexists. split; [reflexivity|]. rewrite !map_length. split; [reflexivity|]. split; [reflexivity|].
  intros k l Hl. split; (erewrite nth_error_nth; [|rewrite !nth_error_map, Hl; reflexivity]).
  - destruct (ipo c && sw)%bool; [reflexivity|ring].
  - destruct (oopo c); [reflexivity|ring].
Qed.
Print Assumptions C62_multi_panel_partial.

(** refuted: with the parameters the function has an argument for, it always fails *)
Theorem C62_multi_panel_refuted : forall rows c switch wa wm, calc_penalty_ipo_oopo_mp rows c switch true wa wm = Err Unbound.
Proof. reflexivity. Qed.
Print Assumptions C62_multi_panel_refuted.

(** out-of-plane penalty of one laminate; null without the constraint *)
Theorem C62_oopo : forall l c w, (12 <= length l)%nat ->
  exists x, calc_penalty_oopo l c w = Ok x /\ (x == (if oopo c then w * non_ortho (nth 10 l 0) (nth 11 l 0) else 0))%Q /\
    ((0 <= w)%Q -> (0 <= x)%Q) /\ (oopo c = true -> (0 < w)%Q -> (x == 0 <-> nth 10 l 0 == 0 /\ nth 11 l 0 == 0)%Q).
Proof.
  intros l c w L. unfold calc_penalty_oopo. rewrite (proj2 (half_sum_iff l 10 11 _)) by (split; [lia|split; [lia|reflexivity]]).
  assert (N : (0 <= (Qabs (nth 10 l 0) + Qabs (nth 11 l 0)) / 2)%Q).
  { pose proof (Qabs_nonneg (nth 10 l 0%Q)). pose proof (Qabs_nonneg (nth 11 l 0%Q)). unfold Qdiv. change (/ 2)%Q with (1 # 2)%Q. lra. }
  destruct (oopo c); cbn [bind]; eexists; (split; [reflexivity|]); (split; [try reflexivity; ring|]).
  - split; [intros W; apply Qmult_le_0_compat; auto|]. intros _ W. rewrite <- half_zero. split.
    + intros Z. apply Qmult_integral in Z as [Z|Z]; [lra|exact Z].
    + intros Z. rewrite Z. ring.
  - split; [intros; rewrite Qmult_0_r; lra|discriminate].
Qed.
Print Assumptions C62_oopo.

Theorem C62_oopo_rows : forall rows c w r,
  (calc_penalty_oopo_rows rows c w = Ok r <->
   length r = length rows /\ forall k l x, nth_error rows k = Some l -> nth_error r k = Some x -> calc_penalty_oopo l c w = Ok x).
Proof.
  intros rows c w r. unfold calc_penalty_oopo_rows, calc_penalty_oopo.
  rewrite <- (sequence_rows (fun l => do o <- (if oopo c then half_sum l 10 11 else Ok 0%Q); Ok (w * o)%Q)).
  assert (G : sequence (map (fun l => do o <- (if oopo c then half_sum l 10 11 else Ok 0%Q); Ok (w * o)%Q) rows) =
              do o <- (if oopo c then sequence (map (fun l => half_sum l 10 11) rows) else Ok (map (fun _ => 0%Q) rows)); Ok (map (fun x => (w * x)%Q) o)).
  { induction rows as [|l rows IH]; [destruct (oopo c); reflexivity|]. cbn [map sequence]. rewrite IH. destruct (oopo c); cbn [bind].
    - destruct (half_sum l 10 11); cbn [bind]; [|reflexivity]. destruct (sequence (map (fun l => half_sum l 10 11) rows)); reflexivity.
    - reflexivity. }
  rewrite G. reflexivity.
Qed.
Print Assumptions C62_oopo_rows.

(** ** penalty on the orthotropy parameters: their largest, divided by their number *)
Lemma qmaxl_spec l m : qmaxl l = Ok m <-> l <> [] /\ m = fold_left (fun m y => if Qltb m y then y else m) (tl l) (hd 0%Q l).
Proof. destruct l as [|x l]; cbn [qmaxl tl hd]; split; [discriminate|intros [H _]; congruence|intros H; injection H as <-; split; [discriminate|reflexivity]|intros [_ ->]; reflexivity]. Qed.

Lemma fold_max l : forall x, let m := fold_left (fun m y => if Qltb m y then y else m) l x in
  (In m (x :: l)) /\ (forall y, In y (x :: l) -> (y <= m)%Q).
Proof.
  induction l as [|z l IH]; intros x; cbn [fold_left].
  - split; [left; reflexivity|]. intros y [<-|[]]. lra.
  - destruct (IH (if Qltb x z then z else x)) as [H K]. set (m := fold_left _ _ _) in *. clearbody m.
    unfold Qltb in *. destruct (Qle_bool z x) eqn:E; cbn [negb] in *.
    + apply Qle_bool_iff in E. split.
      * destruct H as [H|H]; [left; exact H|right; right; exact H].
      * intros y [<-|[<-|Hy]]; [apply K; left; reflexivity| |apply K; right; exact Hy]. pose proof (K x (or_introl eq_refl)). lra.
    + assert (~ (z <= x)%Q) by (intros X; apply Qle_bool_iff in X; congruence). split.
      * destruct H as [H|H]; [right; left; exact H|right; right; exact H].
      * intros y [<-|[<-|Hy]]; [|apply K; left; reflexivity|apply K; right; exact Hy]. pose proof (K z (or_introl eq_refl)). lra.
Qed.

Lemma clip_abs x : ((if Qltb 0 (Qabs x) then Qabs x else 0) == Qabs x)%Q.
Proof.
  unfold Qltb. destruct (Qle_bool (Qabs x) 0) eqn:E; cbn [negb]; [|reflexivity]. apply Qle_bool_iff in E. pose proof (Qabs_nonneg x). lra.
Qed.

Theorem C62_param_partial : forall p t, p <> [] ->
  exists x, calc_penalty_ipo_param p t = Ok x /\ (0 <= x)%Q /\ (x == 0 <-> all_zero p)%Q /\
    (forall y, In y p -> Qabs y <= x * inject_Z (zlen p))%Q /\ (exists y, In y p /\ x * inject_Z (zlen p) == Qabs y)%Q.
Proof.
  intros p t NE. unfold calc_penalty_ipo_param. set (f := fun x => let a := Qabs x in if Qltb 0 a then a else 0%Q).
  assert (FE : forall x, (f x == Qabs x)%Q) by (intros x; apply clip_abs).
  destruct p as [|p0 p]; [congruence|]. clear NE. cbn [map qmaxl bind].
  destruct (fold_max (map f p) (f p0)) as [H K]. set (m := fold_left _ _ _) in *. clearbody m. change (f p0 :: map f p) with (map f (p0 :: p)) in *.
  assert (NP : (0 < inject_Z (zlen (p0 :: p)))%Q) by (unfold zlen; cbn [length]; change 0%Q with (inject_Z 0); rewrite <- Zlt_Qlt; lia).
  rewrite qdiv_nz by lra. eexists. split; [reflexivity|].
  assert (E : (m / inject_Z (zlen (p0 :: p)) * inject_Z (zlen (p0 :: p)) == m)%Q) by (field; lra).
  set (n := inject_Z (zlen (p0 :: p))) in *. clearbody n. 
  apply in_map_iff in H as (y & Ey & Hy).
  assert (M : (0 <= m)%Q) by (rewrite <- Ey, FE; apply Qabs_nonneg).
  assert (UB : forall z, In z (p0 :: p) -> (Qabs z <= m)%Q) by (intros z Hz; rewrite <- FE; apply K, in_map, Hz).
  split; [apply Qle_shift_div_l; lra|]. split; [|split; [intros z Hz; rewrite E; auto|exists y; split; [exact Hy|rewrite E, <- Ey; apply FE]]].
  split.
  - intros Z z Hz. assert (m == 0)%Q by (rewrite <- E, Z; ring). specialize (UB z Hz). revert UB. apply Qabs_case; intros; lra.
  - intros Z. assert (m == 0)%Q by (rewrite <- Ey, FE, (Z y Hy); reflexivity). rewrite H. unfold Qdiv. ring.
Qed.
Print Assumptions C62_param_partial.

(** refuted: the threshold plays no role, a laminate within the threshold is penalised *)
Theorem C62_param_refuted : (forall p t t', calc_penalty_ipo_param p t = calc_penalty_ipo_param p t') /\
  (exists x, calc_penalty_ipo_param [1 # 1000; 0; 0; 0; 0; 0]%Q (1 # 100) = Ok x /\ (0 < x)%Q).
Proof. split; [reflexivity|]. eexists. split; [reflexivity|reflexivity]. Qed.
Print Assumptions C62_param_refuted.

(** ** a balanced stacking sequence is not penalised *)
Lemma sumQ_perm l m : Permutation.Permutation l m -> (sumQ l == sumQ m)%Q.
Proof. induction 1; cbn [sumQ fold_right] in *; try lra. unfold sumQ in *. cbn [fold_right]. lra. Qed.

Lemma sumQ_opp f l : (forall a, f (- a)%Z == - f a)%Q -> (sumQ (map f (map Z.opp l)) == - sumQ (map f l))%Q.
Proof. intros O. induction l as [|a l IH]; unfold sumQ in *; cbn [map fold_right]; [reflexivity|]. rewrite IH, O. ring. Qed.

Lemma balanced_sum f l : balanced l -> (forall a, f (- a)%Z == - f a)%Q -> (f 90%Z == 0)%Q -> (sumQ (map f l) == 0)%Q.
Proof.
  intros B O Z. set (ang := fun a => (negb (a =? 0) && negb (Z.abs a =? 90))%bool).
  assert (F : (sumQ (map f l) == sumQ (map f (filter ang l)))%Q).
  { clear B. induction l as [|a l IH]; [reflexivity|]. cbn [filter]. destruct (ang a) eqn:E; unfold sumQ in *; cbn [map fold_right]; rewrite IH; [reflexivity|].
    assert (f a == 0)%Q; [|lra]. unfold ang in E. apply Bool.andb_false_iff in E as [E|E]; apply Bool.negb_false_iff, Z.eqb_eq in E.
    - subst a. pose proof (O 0%Z) as X. cbn in X. lra.
    - assert (a = 90 \/ a = -90) as [->| ->] by lia; [auto|]. pose proof (O 90%Z) as X. cbn in X. rewrite X, Z. reflexivity. }
  rewrite F. assert (P : Permutation.Permutation (filter ang l) (map Z.opp (filter ang l))).
  { apply (Permutation_count_occ Z.eq_dec). intros a.
    assert (C1 : forall a, count_occ Z.eq_dec (filter ang l) a = if ang a then count_occ Z.eq_dec l a else 0%nat).
    { clear. intros a. induction l as [|b l IH]; cbn [filter count_occ]; [destruct (ang a); reflexivity|].
      destruct (ang b) eqn:E; cbn [count_occ]; destruct (Z.eq_dec b a) as [->|N]; rewrite ?IH, ?E; auto. }
    assert (C2 : forall m, count_occ Z.eq_dec (map Z.opp m) a = count_occ Z.eq_dec m (- a)).
    { clear. induction m as [|b m IH]; cbn [map count_occ]; [reflexivity|]. destruct (Z.eq_dec (- b) a), (Z.eq_dec b (- a)); try lia; rewrite IH; reflexivity. }
    rewrite C2, !C1. assert (EA : ang (- a) = ang a).
    { unfold ang. rewrite Z.abs_opp. f_equal. f_equal. destruct (Z.eqb_spec (- a) 0), (Z.eqb_spec a 0); auto; lia. }
    rewrite EA. destruct (ang a) eqn:E; [|reflexivity]. unfold ang in E. apply Bool.andb_true_iff in E as [E1 E2].
    apply Bool.negb_true_iff in E1, E2. apply Z.eqb_neq in E1, E2. apply B; auto. }
  pose proof (sumQ_perm _ _ (Permutation.Permutation_map f P)) as X. rewrite sumQ_opp in X by auto. lra.
Qed.

(** the lamination parameters of a stacking sequence: [l] has mean of [f] over the plies at place [i] *)
Definition ply_mean (f : Z -> Q) (ss : list Z) : Q := (sumQ (map f ss) / inject_Z (zlen ss))%Q.

(** [s2], [s4]: sine of twice and four times an angle in degrees; only their oddness and the value at 90 matter *)
Theorem C62_balanced_not_penalised : forall (s2 s4 : Z -> Q) ss l w,
  (forall a, s2 (- a)%Z == - s2 a)%Q -> (forall a, s4 (- a)%Z == - s4 a)%Q -> (s2 90%Z == 0)%Q -> (s4 90%Z == 0)%Q ->
  balanced ss -> (4 <= length l)%nat -> (nth 2 l 0 == ply_mean s2 ss)%Q -> (nth 3 l 0 == ply_mean s4 ss)%Q ->
  exists x, calc_penalty_ipo l w = Ok x /\ (x == 0)%Q.
Proof.
  intros s2 s4 ss l w O2 O4 N2 N4 B L E2 E3. destruct (C62_ipo l w L) as (x & H & V & _). exists x. split; [exact H|]. rewrite V. unfold non_ortho.
  assert (Z2 : (nth 2 l 0 == 0)%Q) by (rewrite E2; unfold ply_mean; rewrite (balanced_sum s2 ss B O2 N2); unfold Qdiv; ring).
  assert (Z3 : (nth 3 l 0 == 0)%Q) by (rewrite E3; unfold ply_mean; rewrite (balanced_sum s4 ss B O4 N4); unfold Qdiv; ring).
  rewrite Z2, Z3. change (Qabs 0) with 0%Q. unfold Qdiv. ring.
Qed.
Print Assumptions C62_balanced_not_penalised.

(** concrete cases: [45/-45/0/90] (sine of twice the angle 1, -1, 0, 0) and [45/0] *)
Definition sin2deg (a : Z) : Q := if a =? 45 then 1%Q else if a =? -45 then (-1)%Q else 0%Q.
Theorem C62_example : balanced [45; -45; 0; 90] /\ (forall a, sin2deg (- a)%Z == - sin2deg a)%Q /\ (ply_mean sin2deg [45; -45; 0; 90]%Z == 0)%Q /\
  (exists x, calc_penalty_ipo [0; 0; 0; 0]%Q 2 = Ok x /\ (x == 0)%Q) /\
  (exists x, calc_penalty_ipo [1 # 2; 0; 1 # 2; 0]%Q 2 = Ok x /\ (x == 1 # 2)%Q) /\
  (exists x, calc_penalty_ipo_param [1 # 2; 0; 1 # 4; 0]%Q 1 = Ok x /\ (x == 1 # 8)%Q).
Proof.
  split; [apply is_balanced_spec; reflexivity|]. split.
  { intros a. unfold sin2deg. destruct (Z.eqb_spec (- a) 45), (Z.eqb_spec (- a) (-45)), (Z.eqb_spec a 45), (Z.eqb_spec a (-45)); try lia; reflexivity. }
  split; [reflexivity|]. split; [eexists; split; reflexivity|]. split; [eexists; split; reflexivity|eexists; split; reflexivity].
Qed.
Print Assumptions C62_example.
