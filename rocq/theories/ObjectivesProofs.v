(* ObjectivesProofs.v - lemmas about Objectives.v *)
From Coq Require Import Lqa Setoid Morphisms.
From Verif Require Import Base Objectives.
Local Open Scope Z_scope.

(** the penalty of panel i *)
Definition at_panel (p : arg) (i : nat) : Q :=
  match p with
  | ANum q => q
  | AArr [q] => q
  | AArr l => nth i l 0%Q
  | AList l => match nth i l None with Some q => q | None => 0%Q end
  | ANone => 0%Q
  end.

(** usable by numpy for n panels: a number, or an array of size n or 1 *)
Definition fits (n : nat) (p : arg) : Prop :=
  match p with ANum _ => True | AArr l => length l = n \/ length l = 1%nat | _ => False end.

Lemma zip_length f l m : length l = length m -> length (zip_with f l m) = length l.
Proof. intros H. unfold zip_with. rewrite map_length, combine_length, H. apply Nat.min_id. Qed.
Lemma zip_nth f l m i : length l = length m -> (i < length l)%nat -> nth i (zip_with f l m) 0%Q = f (nth i l 0%Q) (nth i m 0%Q).
Proof.
  intros H Hi. unfold zip_with.
  rewrite (nth_indep _ 0%Q (f (fst (0%Q, 0%Q)) (snd (0%Q, 0%Q)))) by (rewrite map_length, combine_length; lia).
  rewrite (map_nth (fun p => f (fst p) (snd p))), combine_nth by auto. reflexivity.
Qed.
Lemma map_nth_lt (f : Q -> Q) l i : (i < length l)%nat -> nth i (map f l) 0%Q = f (nth i l 0%Q).
Proof. intros H. rewrite (nth_indep _ 0%Q (f 0%Q)) by (rewrite map_length; auto). apply map_nth. Qed.

Lemma vmul_factor l c p n : fits n p -> length l = n ->
  exists f m, factor c p = Ok f /\ vmul (Arr l) f = Ok (Arr m) /\ length m = n /\
    (forall i, (i < n)%nat -> nth i m 0%Q == nth i l 0%Q * (1 + c * at_panel p i))%Q.
Proof.
  intros F L. destruct p as [q|a|a|]; cbn [fits] in F; try contradiction.
  - eexists; eexists; split; [reflexivity|]; split; [reflexivity|]. rewrite map_length. split; auto.
    intros i Hi. rewrite map_nth_lt by lia. reflexivity.
  - cbn [factor]. exists (Arr (map (fun q => (1 + c * q)%Q) a)). unfold vmul, broadcast. rewrite map_length.
    destruct (Nat.eqb_spec (length l) (length a)) as [E|E].
    + eexists; split; [reflexivity|]; split; [reflexivity|]. split; [rewrite zip_length; rewrite ?map_length; auto; lia|].
      intros i Hi. rewrite zip_nth by (rewrite ?map_length; lia). rewrite map_nth_lt by lia.
      assert (X : at_panel (AArr a) i = nth i a 0%Q).
      { destruct a as [|x [|y a]]; cbn [at_panel]; auto. cbn in E. assert (i = 0)%nat by lia. subst; reflexivity. }
      rewrite X. reflexivity.
    + destruct F as [F|F]; [lia|]. destruct a as [|x [|y a]]; try discriminate F. cbn [map].
      destruct l as [|l0 [|l1 l]].
      * eexists; split; [reflexivity|]; split; [reflexivity|]. cbn in L |- *. subst n. split; [auto|]. intros; lia.
      * cbn in E. congruence.
      * eexists; split; [reflexivity|]; split; [reflexivity|]. rewrite map_length. split; auto.
        intros i Hi. rewrite map_nth_lt by lia. reflexivity.
Qed.

(** Σ_i f i for i < n *)
Definition total (n : nat) (f : nat -> Q) : Q := sumQ (map f (seq 0 n)).

Lemma sumQ_seq : forall l s f, (forall i, (i < length l)%nat -> nth i l 0%Q == f (s + i)%nat)%Q ->
  (sumQ l == sumQ (map f (seq s (length l))))%Q.
Proof.
  induction l as [|x l IH]; intros s f H; [reflexivity|]. cbn [length seq map].
  change (sumQ (x :: l)) with (x + sumQ l)%Q. change (sumQ (f s :: map f (seq (S s) (length l)))) with (f s + sumQ (map f (seq (S s) (length l))))%Q.
  pose proof (H 0%nat ltac:(cbn; lia)) as H0. cbn [nth] in H0. rewrite Nat.add_0_r in H0. rewrite H0.
  rewrite (IH (S s) f); [reflexivity|]. intros i Hi. specialize (H (S i) ltac:(cbn; lia)). cbn [nth] in H.
  rewrite H. rewrite Nat.add_succ_r. reflexivity.
Qed.
Lemma total_of l n f : length l = n -> (forall i, (i < n)%nat -> nth i l 0%Q == f i)%Q -> (sumQ l == total n f)%Q.
Proof. intros <- H. apply sumQ_seq. exact H. Qed.
Lemma total_ext n f g : (forall i, (i < n)%nat -> f i == g i)%Q -> (total n f == total n g)%Q.
Proof.
  intros H. unfold total. assert (G : forall l, (forall i, In i l -> (i < n)%nat) -> (sumQ (map f l) == sumQ (map g l))%Q).
  { induction l as [|x l IH]; intros B; [reflexivity|]. cbn [map].
    change (f x + sumQ (map f l) == g x + sumQ (map g l))%Q. rewrite IH by (intros; apply B; right; auto).
    rewrite H by (apply B; left; auto). reflexivity. }
  apply G. intros i Hi. apply in_seq in Hi. lia.
Qed.
Lemma total_le n f g : (forall i, (i < n)%nat -> f i <= g i)%Q -> (total n f <= total n g)%Q.
Proof.
  intros H. unfold total. assert (G : forall l, (forall i, In i l -> (i < n)%nat) -> (sumQ (map f l) <= sumQ (map g l))%Q).
  { induction l as [|x l IH]; intros B; [cbn; lra|]. cbn [map].
    change (f x + sumQ (map f l) <= g x + sumQ (map g l))%Q. specialize (IH ltac:(intros; apply B; right; auto)).
    specialize (H x ltac:(apply B; left; auto)). lra. }
  apply G. intros i Hi. apply in_seq in Hi. lia.
Qed.
Lemma total_zero n : (total n (fun _ => 0%Q) == 0)%Q.
Proof. unfold total. generalize (seq 0 n). induction l as [|x l IH]; [reflexivity|]. cbn [map]. change (0 + sumQ (map (fun _ => 0%Q) l) == 0)%Q. rewrite IH. reflexivity. Qed.
Lemma total_nonneg n f : (forall i, (i < n)%nat -> 0 <= f i)%Q -> (0 <= total n f)%Q.
Proof. intros H. rewrite <- (total_zero n). apply total_le. exact H. Qed.
Lemma total_S n f : (total (S n) f == total n f + f n)%Q.
Proof.
  unfold total. rewrite seq_S, map_app. cbn [map plus]. generalize (map f (seq 0 n)). induction l as [|x l IH].
  - change (f n + 0 == 0 + f n)%Q. ring.
  - change (x + sumQ (l ++ [f n]) == x + sumQ l + f n)%Q. rewrite IH. ring.
Qed.

(** the factor of panel i *)
Definition penalty_factor (p : penalties) (c : coefficients) (i : nat) : Q :=
  ((1 + c_diso c * at_panel (p_diso p) i) * (1 + c_contig c * at_panel (p_contig p) i) * (1 + c_10 c * at_panel (p_10 p) i)
   * (1 + c_bal_ipo c * at_panel (p_bal_ipo p) i) * (1 + c_oopo c * at_panel (p_oopo p) i) * (1 + c_weight c * at_panel (p_weight p) i))%Q.

Definition all_fit n p := fits n (p_diso p) /\ fits n (p_contig p) /\ fits n (p_10 p) /\ fits n (p_bal_ipo p) /\ fits n (p_oopo p) /\ fits n (p_weight p).

Lemma multi_panel_closed objective weightings p c n :
  length objective = n -> length weightings = n -> all_fit n p ->
  exists r, calc_obj_multi_panel objective weightings p c = Ok r /\
    (r == total n (fun i => nth i weightings 0 * nth i objective 0 * penalty_factor p c i))%Q.
Proof.
  intros L1 L2 [F1 [F2 [F3 [F4 [F5 F6]]]]]. unfold calc_obj_multi_panel.
  assert (V0 : vmul (Arr weightings) (Arr objective) = Ok (Arr (zip_with Qmult weightings objective))).
  { unfold vmul, broadcast. rewrite L1, L2, Nat.eqb_refl. reflexivity. }
  rewrite V0; cbn [bind].
  assert (N0 : length (zip_with Qmult weightings objective) = n) by (rewrite zip_length; lia).
  destruct (vmul_factor _ (c_diso c) _ n F1 N0) as [f1 [m1 [-> [E1 [N1 V1]]]]]; cbn [bind]; rewrite E1; cbn [bind].
  destruct (vmul_factor _ (c_contig c) _ n F2 N1) as [f2 [m2 [-> [E2 [N2 V2]]]]]; cbn [bind]; rewrite E2; cbn [bind].
  destruct (vmul_factor _ (c_10 c) _ n F3 N2) as [f3 [m3 [-> [E3 [N3 V3]]]]]; cbn [bind]; rewrite E3; cbn [bind].
  destruct (vmul_factor _ (c_bal_ipo c) _ n F4 N3) as [f4 [m4 [-> [E4 [N4 V4]]]]]; cbn [bind]; rewrite E4; cbn [bind].
  destruct (vmul_factor _ (c_oopo c) _ n F5 N4) as [f5 [m5 [-> [E5 [N5 V5]]]]]; cbn [bind]; rewrite E5; cbn [bind].
  destruct (vmul_factor _ (c_weight c) _ n F6 N5) as [f6 [m6 [-> [E6 [N6 V6]]]]]; cbn [bind]; rewrite E6; cbn [bind vsum].
  eexists; split; [reflexivity|]. apply total_of; auto. intros i Hi.
  rewrite V6, V5, V4, V3, V2, V1 by auto. rewrite zip_nth by lia. unfold penalty_factor. ring.
Qed.

(** * the variant with None entries *)
Lemma panel_factor_ok c p n i : (i < n)%nat -> (p = ANone \/ exists l, p = AArr l /\ length l = n) ->
  exists q, panel_factor c p i = Ok q /\ (q == 1 + c * at_panel p i)%Q.
Proof.
  intros Hi [->|[l [-> L]]].
  - exists 1%Q; split; [reflexivity|]. cbn. ring.
  - cbn [panel_factor]. destruct (1 <? length l)%nat eqn:E.
    + apply Nat.ltb_lt in E. cbn [entry]. rewrite (nth_error_nth' l 0%Q) by lia. cbn [bind]. eexists; split; [reflexivity|].
      destruct l as [|x [|y l]]; cbn [at_panel]; cbn in E; try lia. reflexivity.
    + apply Nat.ltb_ge in E. destruct l as [|x [|y l]]; cbn in *; try lia. eexists; split; reflexivity.
Qed.
Lemma panel_factor_indexed_ok c p n i : (i < n)%nat -> (p = ANone \/ exists l, p = AArr l /\ length l = n) ->
  exists q, panel_factor_indexed c p i = Ok q /\ (q == 1 + c * at_panel p i)%Q.
Proof.
  intros Hi [->|[l [-> L]]].
  - exists 1%Q; split; [reflexivity|]. cbn. ring.
  - cbn [panel_factor_indexed entry]. rewrite (nth_error_nth' l 0%Q) by lia. cbn [bind]. eexists; split; [reflexivity|].
    destruct l as [|x [|y l]]; cbn [at_panel]; try reflexivity. cbn in L. assert (i = 0)%nat by lia. subst; reflexivity.
Qed.

Definition known_or_none n (p : arg) : Prop := p = ANone \/ exists l, p = AArr l /\ length l = n.
Definition all_known n p := known_or_none n (p_diso p) /\ known_or_none n (p_contig p) /\ known_or_none n (p_10 p)
  /\ known_or_none n (p_bal_ipo p) /\ known_or_none n (p_oopo p) /\ known_or_none n (p_weight p).

Definition obj_or_zero (o : option Q) : Q := match o with Some q => q | None => 0%Q end.

Lemma panel_term_ok objective p c n i w : length objective = n -> (i < n)%nat -> all_known n p ->
  exists t, panel_term objective p c i w = Ok t /\ (t == w * obj_or_zero (nth i objective None) * penalty_factor p c i)%Q.
Proof.
  intros L Hi [K1 [K2 [K3 [K4 [K5 K6]]]]]. unfold panel_term.
  rewrite (nth_error_nth' objective None) by lia. destruct (nth i objective None) as [o|] eqn:E.
  - destruct (panel_factor_ok (c_diso c) _ n i Hi K1) as [f1 [-> Q1]]. cbn [bind].
    destruct (panel_factor_ok (c_contig c) _ n i Hi K2) as [f2 [-> Q2]]. cbn [bind].
    destruct (panel_factor_ok (c_10 c) _ n i Hi K3) as [f3 [-> Q3]]. cbn [bind].
    destruct (panel_factor_ok (c_oopo c) _ n i Hi K5) as [f4 [-> Q4]]. cbn [bind].
    destruct (panel_factor_indexed_ok (c_bal_ipo c) _ n i Hi K4) as [f5 [-> Q5]]. cbn [bind].
    destruct (panel_factor_indexed_ok (c_weight c) _ n i Hi K6) as [f6 [-> Q6]]. cbn [bind].
    eexists; split; [reflexivity|]. cbn [obj_or_zero]. rewrite Q1, Q2, Q3, Q4, Q5, Q6. unfold penalty_factor. ring.
  - eexists; split; [reflexivity|]. cbn [obj_or_zero]. ring.
Qed.

Lemma nones_closed objective weightings p c n :
  length objective = n -> length weightings = n -> all_known n p ->
  exists r, calc_obj_multi_panel_nones objective weightings p c = Ok r /\
    (r == total n (fun i => nth i weightings 0 * obj_or_zero (nth i objective None) * penalty_factor p c i))%Q.
Proof.
  intros L1 L2 K. unfold calc_obj_multi_panel_nones.
  assert (G : forall ws done acc, done ++ ws = weightings ->
     (acc == total (length done) (fun i => nth i weightings 0 * obj_or_zero (nth i objective None) * penalty_factor p c i))%Q ->
     exists r, sum_panels objective p c (length done) ws acc = Ok r /\
       (r == total n (fun i => nth i weightings 0 * obj_or_zero (nth i objective None) * penalty_factor p c i))%Q).
  { induction ws as [|w ws IH]; intros done acc E A; cbn [sum_panels].
    - exists acc. split; auto. rewrite app_nil_r in E. subst done. rewrite L2 in A. exact A.
    - assert (Hi : (length done < n)%nat) by (rewrite <- L2, <- E, app_length; cbn; lia).
      destruct (panel_term_ok objective p c n (length done) w L1 Hi K) as [t [-> T]]. cbn [bind].
      specialize (IH (done ++ [w]) (acc + t)%Q). rewrite <- app_assoc, app_length in IH. cbn [app length] in IH. rewrite Nat.add_1_r in IH.
      apply IH; auto. rewrite total_S, A, T.
      assert (W : nth (length done) weightings 0%Q = w) by (rewrite <- E, app_nth2, Nat.sub_diag by lia; reflexivity).
      rewrite W. reflexivity. }
  apply (G weightings [] 0%Q); auto. reflexivity.
Qed.

Lemma zip_sq_nonneg : forall w d, (forall x, In x w -> 0 <= x)%Q -> (0 <= sumQ (zip_with Qmult w (map (fun x => x * x) d)))%Q.
Proof.
  induction w as [|a w IH]; intros d H; [cbn; lra|]. destruct d as [|b d]; [cbn; lra|].
  unfold zip_with in *. cbn [map combine fst snd].
  change (0 <= a * (b * b) + sumQ (map (fun p => fst p * snd p) (combine w (map (fun x => x * x) d))))%Q.
  specialize (IH d ltac:(intros; apply H; right; auto)).
  assert (0 <= a)%Q by (apply H; left; auto).
  assert (0 <= b * b)%Q by nra. assert (0 <= a * (b * b))%Q by (apply Qmult_le_0_compat; auto). lra.
Qed.
