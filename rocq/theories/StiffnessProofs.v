(* StiffnessProofs.v - lemmas about the model of Stiffness.v *)
From Verif Require Import Base Constraints Stiffness.
From Coq Require Import Lqa.
Local Open Scope Z_scope.

Lemma qdiv_ok a b r : qdiv a b = Ok r -> ~ (b == 0)%Q /\ r = (a / b)%Q.
Proof.
  unfold qdiv. destruct (Qeq_bool b 0) eqn:E; [discriminate|]. intros H. injection H as <-. split; auto.
  intros X. apply Qeq_eq_bool in X. congruence.
Qed.

Lemma qdiv_nz a b : ~ (b == 0)%Q -> qdiv a b = Ok (a / b)%Q.
Proof.
  intros H. unfold qdiv. destruct (Qeq_bool b 0) eqn:E; auto. apply Qeq_bool_eq in E. contradiction.
Qed.

(** relations between the fields of a material *)
Lemma mk_material_inv a m : mk_material a = Ok m ->
  (0 < a_E11 a)%Q /\ (0 < a_t a)%Q /\ (0 <= a_dv a)%Q /\ (0 <= a_da a)%Q /\
  E11 m = a_E11 a /\ E22 m = a_E22 a /\ G12 m = a_G12 a /\ nu12 m = a_nu12 a /\ ply_t m = a_t a /\
  (nu21 m * E11 m == nu12 m * E22 m)%Q /\ ~ (1 - nu12 m * nu21 m == 0)%Q /\
  (Q11 m * (1 - nu12 m * nu21 m) == E11 m)%Q /\ (Q12 m * (1 - nu12 m * nu21 m) == nu12 m * E22 m)%Q /\
  (Q22 m * (1 - nu12 m * nu21 m) == E22 m)%Q /\ Q66 m = G12 m /\
  U1 m = ((1 # 8) * (3 * Q11 m + 3 * Q22 m + 2 * Q12 m + 4 * Q66 m))%Q /\
  U2 m = ((1 # 2) * (Q11 m - Q22 m))%Q /\
  U3 m = ((1 # 8) * (Q11 m + Q22 m - 2 * Q12 m - 4 * Q66 m))%Q /\
  U4 m = ((1 # 8) * (Q11 m + Q22 m + 6 * Q12 m - 4 * Q66 m))%Q /\
  U5 m = ((1 # 8) * (Q11 m + Q22 m - 2 * Q12 m + 4 * Q66 m))%Q /\
  ((a_da a == 0 -> a_dv a == 0 -> density_area m == 601 # 2 /\ density_volume m == 0) /\
   (a_da a == 0 -> ~ a_dv a == 0 -> density_volume m == a_dv a /\ density_area m == a_dv a * a_t a) /\
   (~ a_da a == 0 -> a_dv a == 0 -> density_area m == a_da a /\ density_volume m * a_t a == a_da a) /\
   (~ a_da a == 0 -> ~ a_dv a == 0 -> density_area m == a_da a /\ density_volume m == a_dv a))%Q.
Proof.
  intros H. unfold mk_material in H.
  destruct (Qle_bool (a_E11 a) 0) eqn:G1; cbn [guard bind] in H; [discriminate|].
  destruct (Qltb (a_dv a) 0) eqn:G2; cbn [guard bind] in H; [discriminate|].
  destruct (Qltb (a_da a) 0) eqn:G3; cbn [guard bind] in H; [discriminate|].
  destruct (Qle_bool (a_t a) 0) eqn:G4; cbn [guard bind] in H; [discriminate|].
  assert (QL : forall x y, Qle_bool x y = false -> (y < x)%Q).
  { intros x y E. apply Qnot_le_lt. intros C. apply Qle_bool_iff in C. congruence. }
  assert (QG : forall x y, Qltb x y = false -> (y <= x)%Q).
  { intros x y E. unfold Qltb in E. apply negb_false_iff in E. apply Qle_bool_iff, E. }
  apply QL in G1, G4. apply QG in G2, G3.
  destruct (qdiv (a_nu12 a * a_E22 a) (a_E11 a)) as [n21|] eqn:E1; cbn [bind] in H; [|discriminate].
  destruct (if (_ && _)%bool then _ else _) as [dd|] eqn:ED in H; cbn [bind] in H; [|discriminate].
  destruct (qdiv (a_E11 a) _) as [q11|] eqn:E2 in H; cbn [bind] in H; [|discriminate].
  destruct (qdiv (a_nu12 a * a_E22 a) (1 - _)) as [q12|] eqn:E3 in H; cbn [bind] in H; [|discriminate].
  destruct (qdiv (a_E22 a) _) as [q22|] eqn:E4 in H; cbn [bind] in H; [|discriminate].
  injection H as <-. cbn [E11 E22 G12 nu12 nu21 density_area density_volume ply_t Q11 Q12 Q22 Q66 U1 U2 U3 U4 U5].
  apply qdiv_ok in E1 as [Z1 ->]. apply qdiv_ok in E2 as [Z2 ->]. apply qdiv_ok in E3 as [_ ->]. apply qdiv_ok in E4 as [_ ->].
  set (b := (1 - a_nu12 a * (a_nu12 a * a_E22 a / a_E11 a))%Q) in *.
  do 9 (split; [auto|]). split; [field; auto|]. split; [exact Z2|].
  split; [field; auto|]. split; [field; auto|]. split; [field; auto|].
  do 6 (split; [reflexivity|]).
  assert (NB : forall x, ~ (x == 0)%Q -> Qeq_bool x 0 = false).
  { intros x X. apply not_true_iff_false. rewrite Qeq_bool_iff. auto. }
  assert (TZ : ~ (a_t a == 0)%Q) by lra.
  split; [|split; [|split]]; intros X Y.
  - rewrite (Qeq_eq_bool _ _ X), (Qeq_eq_bool _ _ Y) in ED. cbn [andb] in ED. rewrite (qdiv_nz _ _ TZ) in ED. cbn [bind] in ED.
    injection ED as <-. cbn [fst snd]. split; [reflexivity|]. rewrite X. field. auto.
  - rewrite (Qeq_eq_bool _ _ X), (NB _ Y) in ED. cbn [andb] in ED. injection ED as <-. cbn [fst snd]. split; reflexivity.
  - rewrite (NB _ X), (Qeq_eq_bool _ _ Y) in ED. cbn [andb] in ED. rewrite (qdiv_nz _ _ TZ) in ED. cbn [bind] in ED.
    injection ED as <-. cbn [fst snd]. split; [reflexivity|]. field. auto.
  - rewrite (NB _ X), (NB _ Y) in ED. cbn [andb] in ED. injection ED as <-. cbn [fst snd]. split; reflexivity.
Qed.

(** minimum of a list *)
Lemma qmin_from_spec l : forall x, (forall y, In y (x :: l) -> (qmin_from x l <= y)%Q) /\ In (qmin_from x l) (x :: l).
Proof.
  induction l as [|z l IH]; intros x; cbn [qmin_from].
  - split; [intros y [->|[]]; apply Qle_refl|left; auto].
  - destruct (IH (if Qltb z x then z else x)) as [A B].
    unfold Qltb in *. destruct (Qle_bool x z) eqn:E; cbn [negb] in *.
    + apply Qle_bool_iff in E. split.
      * intros y [->|[->|I]]; [apply A; left; auto| |apply A; right; auto].
        eapply Qle_trans; [apply A; left; reflexivity|exact E].
      * destruct B as [B|B]; [left; auto|right; right; auto].
    + assert (L : (z < x)%Q) by (apply Qnot_le_lt; intros C; apply Qle_bool_iff in C; congruence).
      split.
      * intros y [->|[->|I]]; [|apply A; left; auto|apply A; right; auto].
        eapply Qle_trans; [apply A; left; reflexivity|apply Qlt_le_weak, L].
      * destruct B as [B|B]; [right; left; auto|right; right; auto].
Qed.

Lemma sequence_map {A B} (f : A -> result B) l r : sequence (map f l) = Ok r ->
  length r = length l /\ forall x, In x l -> exists y, f x = Ok y /\ In y r.
Proof.
  revert r. induction l as [|x l IH]; intros r H; cbn [map sequence] in H.
  - injection H as <-. split; auto. intros x [].
  - destruct (f x) as [y|] eqn:E; cbn [bind] in H; [|discriminate].
    destruct (sequence (map f l)) as [r'|]; cbn [bind] in H; [|discriminate]. injection H as <-.
    destruct (IH r' eq_refl) as [L I]. split; [cbn; congruence|].
    intros z [->|Hz]; [exists y; split; auto; left; auto|]. destruct (I z Hz) as [u [Eu Iu]]. exists u. split; auto. right; auto.
Qed.

Lemma sequence_map_inv {A B} (f : A -> result B) l r : sequence (map f l) = Ok r ->
  forall y, In y r -> exists x, In x l /\ f x = Ok y.
Proof.
  revert r. induction l as [|x l IH]; intros r H; cbn [map sequence] in H.
  - injection H as <-. intros y [].
  - destruct (f x) as [y|] eqn:E; cbn [bind] in H; [|discriminate].
    destruct (sequence (map f l)) as [r'|]; cbn [bind] in H; [|discriminate]. injection H as <-.
    intros z [->|Hz]; [exists x; split; [left; auto|auto]|]. destruct (IH r' eq_refl z Hz) as [u [Iu Eu]]. exists u. split; auto. right; auto.
Qed.

Lemma sequence_map_ok {A B} (f : A -> result B) l : (forall x, In x l -> exists y, f x = Ok y) -> exists r, sequence (map f l) = Ok r.
Proof.
  induction l as [|x l IH]; intros H; [exists []; auto|]. cbn [map sequence].
  destruct (H x (or_introl eq_refl)) as [y ->]. cbn [bind]. destruct IH as [r ->]; [intros; apply H; right; auto|].
  cbn [bind]. eauto.
Qed.

Lemma sequence_map_total {A B} (f : A -> B) l : sequence (map (fun x => Ok (f x)) l) = Ok (map f l).
Proof. induction l as [|x l IH]; [reflexivity|]. cbn [map sequence bind]. rewrite IH. reflexivity. Qed.

Lemma in_modes k m n : In (m, n) (modes k) <-> 1 <= m <= Z.of_nat k /\ 1 <= n <= Z.of_nat k.
Proof.
  unfold modes. rewrite in_flat_map. split.
  - intros [i [Hi H]]. apply in_map_iff in H as [j [E Hj]]. injection E as <- <-. apply in_seq in Hi, Hj. lia.
  - intros [M N]. exists (Z.to_nat (m - 1)). split; [apply in_seq; lia|]. apply in_map_iff. exists (Z.to_nat (n - 1)).
    split; [f_equal; lia|apply in_seq; lia].
Qed.

(** buckling factor: the smallest of the factors of the modes *)
Lemma buckling_inv pi2 l mat np Nx Ny lx ly k f : buckling_factor pi2 l mat np Nx Ny lx ly k = Ok f ->
  exists D, bending l mat np = Ok D /\ (1 <= k)%nat /\
  (forall m n, 1 <= m <= Z.of_nat k -> 1 <= n <= Z.of_nat k -> exists g, buckling_factor_m_n pi2 D m n Nx Ny lx ly = Ok g /\ (f <= g)%Q) /\
  exists m n, 1 <= m <= Z.of_nat k /\ 1 <= n <= Z.of_nat k /\ buckling_factor_m_n pi2 D m n Nx Ny lx ly = Ok f.
Proof.
  unfold buckling_factor. destruct (bending l mat np) as [D|]; cbn [bind]; [|discriminate].
  destruct (sequence _) as [b|] eqn:ES; cbn [bind]; [|discriminate]. intros H. exists D. split; auto.
  destruct b as [|x b]; cbn [qmin] in H; [discriminate|].
  assert (EF : f = qmin_from x b) by congruence. clear H.
  destruct (qmin_from_spec b x) as [A B]. rewrite <- EF in *.
  pose proof (sequence_map_inv _ _ _ ES f B) as [[m n] [I E]]. cbn [fst snd] in E. apply in_modes in I.
  split; [lia|]. split.
  - intros m' n' M N. destruct (sequence_map _ _ _ ES) as [_ S].
    destruct (S (m', n')) as [g [Eg Ig]]; [apply in_modes; auto|]. cbn [fst snd] in Eg. eauto.
  - exists m, n. tauto.
Qed.

Lemma buckling_ok pi2 l mat np Nx Ny lx ly k D : bending l mat np = Ok D -> (1 <= k)%nat ->
  (forall m n, 1 <= m <= Z.of_nat k -> 1 <= n <= Z.of_nat k -> exists g, buckling_factor_m_n pi2 D m n Nx Ny lx ly = Ok g) ->
  exists f, buckling_factor pi2 l mat np Nx Ny lx ly k = Ok f.
Proof.
  intros B K H. unfold buckling_factor. rewrite B. cbn [bind].
  destruct (sequence_map_ok (fun mn => buckling_factor_m_n pi2 D (fst mn) (snd mn) Nx Ny lx ly) (modes k)) as [r E].
  { intros [m n] I. apply in_modes in I as [M N]. apply H; auto. }
  rewrite E. cbn [bind]. destruct (sequence_map _ _ _ E) as [_ S].
  destruct (S (1, 1)) as [g [_ Ig]]; [apply in_modes; lia|]. destruct r; [destruct Ig|]. eexists; reflexivity.
Qed.
