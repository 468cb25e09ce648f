(* Properties_swap.v - C86: the change of the flexural lamination parameters computed for an
   exchange of plies *)
From Verif Require Import Base Uniq Constraints Membrane Flexural SwapD Properties_objectives Properties_subset Properties_counters.
From Coq Require Import Lqa Field.
Local Open Scope Z_scope.

(** ** Specification. Lamination parameter D number k of a laminate: ply i (from 0 on) of n lies
    between the heights i - n/2 and i + 1 - n/2 *)
Definition height (n i : nat) : Q := (inject_Z (Z.of_nat i) - inject_Z (Z.of_nat n) / 2)%Q.
Definition weight (n i : nat) : Q :=
  (4 / cube (inject_Z (Z.of_nat n)) * (cube (height n (S i)) - cube (height n i)))%Q.
Definition flexural (cos_sin : Z -> nat -> Q) (ss : list Z) (k : nat) : Q :=
  sum_to (length ss) (fun i => weight (length ss) i * cos_sin (nth i ss 0%Z) k)%Q.

(** ply i of n belongs to a group given by its positions, which count from 1; of a symmetric
    laminate the mirror image of the group belongs to it too *)
Definition in_group (sym : bool) (n : nat) (pos : list Z) (i : nat) : Prop :=
  In (Z.of_nat i + 1) pos \/ (sym = true /\ In (Z.of_nat n - Z.of_nat i) pos).

(** the plies of two groups exchange their angles a1 and a2, nothing else changes *)
Definition exchanged (sym : bool) (pos1 pos2 : list Z) (a1 a2 : Z) (ss ss' : list Z) : Prop :=
  length ss' = length ss /\
  forall i, (i < length ss)%nat ->
    (in_group sym (length ss) pos1 i -> nth i ss 0 = a1 /\ nth i ss' 0 = a2) /\
    (in_group sym (length ss) pos2 i -> nth i ss 0 = a2 /\ nth i ss' 0 = a1) /\
    (~ in_group sym (length ss) pos1 i -> ~ in_group sym (length ss) pos2 i -> nth i ss' 0 = nth i ss 0).

(** groups of distinct plies; of a symmetric laminate plies of the first half, apart from a
    middle ply *)
Definition proper_groups (sym : bool) (n : nat) (pos1 pos2 : list Z) : Prop :=
  NoDup (pos1 ++ pos2) /\ forall p, In p (pos1 ++ pos2) -> 1 <= p /\ (if sym then 2 * p <= Z.of_nat n else p <= Z.of_nat n).

(* ------------------------------------------------------------------ *)
Definition ind (b : bool) : Q := if b then 1%Q else 0%Q.

Lemma sum_to_S n f : (sum_to (S n) f == sum_to n f + f n)%Q.
Proof. reflexivity. Qed.
Lemma sum_to_plus n f g : (sum_to n (fun i => f i + g i) == sum_to n f + sum_to n g)%Q.
Proof. induction n as [|n IH]; [reflexivity|]. rewrite (sum_to_S n (fun i => (f i + g i)%Q)), (sum_to_S n f), (sum_to_S n g), IH. ring. Qed.
Lemma sum_to_times n a f : (sum_to n (fun i => a * f i) == a * sum_to n f)%Q.
Proof. induction n as [|n IH]; [cbn; ring|]. rewrite (sum_to_S n (fun i => (a * f i)%Q)), (sum_to_S n f), IH. ring. Qed.
Lemma sum_to_pick n w p : (p < n)%nat -> (sum_to n (fun i => ind (Nat.eqb i p) * w i) == w p)%Q.
Proof.
  induction n as [|n IH]; [lia|]. intros H. rewrite (sum_to_S n (fun i => (ind (Nat.eqb i p) * w i)%Q)).
  destruct (Nat.eq_dec n p) as [->|N].
  - rewrite Nat.eqb_refl. cbn [ind]. enough (sum_to p (fun i => ind (Nat.eqb i p) * w i) == 0)%Q as -> by ring.
    rewrite (sum_to_ext p _ (fun _ => 0%Q)).
    + clear. induction p as [|p IH]; [reflexivity|]. rewrite sum_to_S, IH; reflexivity.
    + intros i Hi. destruct (Nat.eqb_spec i p); [lia|]. cbn [ind]; ring.
  - rewrite IH by lia. destruct (Nat.eqb_spec n p); [lia|]. cbn [ind]; ring.
Qed.

Definition mem (x : Z) (l : list Z) : bool := existsb (Z.eqb x) l.
Lemma mem_in x l : mem x l = true <-> In x l.
Proof. unfold mem; rewrite existsb_exists; split; [intros [y [I E]]; apply Z.eqb_eq in E; subst; auto|intros I; exists x; split; auto; apply Z.eqb_refl]. Qed.

(** sum over the plies of a group *)
Lemma group_sum n (w : nat -> Q) (g : nat -> Z) (h : Z -> nat) :
  (forall i, (i < n)%nat -> h (g i) = i) ->
  forall pos, NoDup pos -> (forall p, In p pos -> (h p < n)%nat /\ g (h p) = p) ->
  (sum_to n (fun i => ind (mem (g i) pos) * w i) == sumQ (map (fun p => w (h p)) pos))%Q.
Proof.
  intros Hg; induction pos as [|p t IH]; intros ND H.
  - cbn [map]; change (sumQ []) with 0%Q. rewrite (sum_to_ext n _ (fun _ => 0%Q)); [|intros; cbn; ring].
    clear; induction n as [|n IH]; [reflexivity|]. rewrite sum_to_S, IH; reflexivity.
  - inversion ND as [|? ? N1 N2]; subst. cbn [map]. change (sumQ (?a :: ?l)) with (a + sumQ l)%Q.
    rewrite <- IH by (auto; intros; apply H; right; auto).
    destruct (H p (or_introl eq_refl)) as [Hp Gp].
    rewrite <- (sum_to_pick n w (h p) Hp) at 1. rewrite <- (sum_to_plus n (fun i => (ind (Nat.eqb i (h p)) * w i)%Q) (fun i => (ind (mem (g i) t) * w i)%Q)).
    apply sum_to_ext; intros i Hi. cbn [mem existsb]. change (existsb (Z.eqb (g i)) t) with (mem (g i) t).
    destruct (Nat.eqb_spec i (h p)) as [->|N].
    + rewrite Gp, Z.eqb_refl. cbn [orb]. destruct (mem p t) eqn:E; [apply mem_in in E; contradiction|]. cbn [ind]; ring.
    + destruct (Z.eqb_spec (g i) p) as [E|E]; [subst p; rewrite (Hg i Hi) in N; congruence|]. cbn [orb ind]; ring.
Qed.

Lemma weight_mirror n i : (i < n)%nat -> (weight n (n - 1 - i) == weight n i)%Q.
Proof.
  intros H; unfold weight. assert (E : (cube (height n (S (n - 1 - i))) - cube (height n (n - 1 - i)) == cube (height n (S i)) - cube (height n i))%Q).
  { unfold height, cube. replace (Z.of_nat (S (n - 1 - i))) with (Z.of_nat n - Z.of_nat i) by lia. replace (Z.of_nat (n - 1 - i)) with (Z.of_nat n - Z.of_nat i - 1) by lia.
    replace (Z.of_nat (S i)) with (Z.of_nat i + 1) by lia. unfold Z.sub. rewrite !inject_Z_plus, !inject_Z_opp. change (inject_Z 1) with 1%Q. field. }
  rewrite E; reflexivity.
Qed.

(** the weight of the ply at position p *)
Definition at_pos (n : nat) (p : Z) : Q := weight n (Z.to_nat (p - 1)).

Lemma contribution_sum n factor cs k : forall pos, (forall p, In p pos -> 1 <= p) -> (0 < n)%nat ->
  (contribution (factor / cube (inject_Z (Z.of_nat n))) cs (z_2 (Z.of_nat n) pos) k == factor / 4 * (cs k * sumQ (map (at_pos n) pos)))%Q.
Proof.
  intros pos H Hn. assert (N0 : ~ (inject_Z (Z.of_nat n) == 0)%Q) by (change 0%Q with (inject_Z 0); rewrite inject_Z_injective; lia).
  unfold contribution, z_2. induction pos as [|p t IH]; cbn [map].
  - change (sumQ []) with 0%Q. field. auto. unfold cube. intros X. apply N0. apply Qmult_integral in X; destruct X as [X|X]; auto. apply Qmult_integral in X; destruct X; auto.
  - change (sumQ (?a :: ?l)) with (a + sumQ l)%Q.
    specialize (IH (fun x Hx => H x (or_intror Hx))). specialize (H p (or_introl eq_refl)).
    match goal with |- (?f * (?a + ?b) == _)%Q => assert (D : (f * (a + b) == f * a + f * b)%Q) by ring; rewrite D, IH; clear D IH end.
    assert (W : (at_pos n p == 4 / cube (inject_Z (Z.of_nat n)) * (cube (- inject_Z (Z.of_nat n) / 2 * 1 + inject_Z p) - cube (- inject_Z (Z.of_nat n) / 2 * 1 + inject_Z (p - 1))))%Q).
    { unfold at_pos, weight, height, cube. replace (Z.of_nat (S (Z.to_nat (p - 1)))) with p by lia. replace (Z.of_nat (Z.to_nat (p - 1))) with (p - 1) by lia. field; auto. }
    rewrite W. set (S1 := sumQ (map (at_pos n) t)). clearbody S1.
    set (C := (cube (- inject_Z (Z.of_nat n) / 2 * 1 + inject_Z p) - cube (- inject_Z (Z.of_nat n) / 2 * 1 + inject_Z (p - 1)))%Q). clearbody C.
    unfold cube. field. auto.
Qed.

Lemma sums_of_group (sy : bool) (n : nat) (pos : list Z) : (0 < n)%nat -> NoDup pos -> (forall p, In p pos -> 1 <= p /\ (if sy then 2 * p <= Z.of_nat n else p <= Z.of_nat n)) ->
  (sum_to n (fun i => ind (mem (Z.of_nat i + 1) pos) * weight n i + (if sy then ind (mem (Z.of_nat n - Z.of_nat i) pos) * weight n i else 0))
   == (if sy then 2 else 1) * sumQ (map (at_pos n) pos))%Q.
Proof.
  intros Hn ND H.
  rewrite (sum_to_plus n (fun i => (ind (mem (Z.of_nat i + 1) pos) * weight n i)%Q) (fun i => if sy then (ind (mem (Z.of_nat n - Z.of_nat i) pos) * weight n i)%Q else 0%Q)).
  rewrite (group_sum n (weight n) (fun i => Z.of_nat i + 1) (fun p => Z.to_nat (p - 1))); auto; [|intros; lia|].
  2: { intros p I; specialize (H p I); destruct sy; split; lia. }
  change (fun p => weight n (Z.to_nat (p - 1))) with (at_pos n).
  destruct sy.
  - rewrite (group_sum n (weight n) (fun i => Z.of_nat n - Z.of_nat i) (fun p => Z.to_nat (Z.of_nat n - p))); auto; [|intros; lia|].
    2: { intros p I; specialize (H p I); split; lia. }
    assert (E : (sumQ (map (fun p => weight n (Z.to_nat (Z.of_nat n - p))) pos) == sumQ (map (at_pos n) pos))%Q).
    { clear ND. induction pos as [|p t IH]; cbn [map]; [reflexivity|]. change (sumQ (?a :: ?l)) with (a + sumQ l)%Q.
      rewrite IH by (intros; apply H; right; auto). specialize (H p (or_introl eq_refl)).
      unfold at_pos at 3. rewrite <- (weight_mirror n (Z.to_nat (p - 1))) by lia. replace (n - 1 - Z.to_nat (p - 1))%nat with (Z.to_nat (Z.of_nat n - p)) by lia. reflexivity. }
    rewrite E. ring.
  - assert (Z0 : (sum_to n (fun _ => 0%Q) == 0)%Q) by (clear; induction n as [|n IH]; [reflexivity|]; rewrite sum_to_S, IH; reflexivity).
    rewrite Z0. ring.
Qed.

Lemma ind_angle_none set a : In a set -> ind_angle set a = None -> False.
Proof.
  assert (X : forall (l : list Z) b, In b l -> index_of b l = None -> False).
  { intros l b I E; apply index_of_none in E; auto. }
  intros I; unfold ind_angle. destruct ((a =? -90) && memb 90 set)%bool eqn:E; [|apply X; auto].
  apply andb_true_iff in E; destruct E as [_ E]. unfold memb in E; apply existsb_exists in E; destruct E as [y [J F]]. apply Z.eqb_eq in F; subst; apply X; auto.
Qed.

(** ** C86: the computed change is the difference of the lamination parameters *)
Theorem C86_swap_is_exact : forall c cos_sin a1 a2 pos1 pos2 ss ss',
  ss <> [] -> In a1 (set_of_angles c) -> In a2 (set_of_angles c) ->
  proper_groups (sym c) (length ss) pos1 pos2 -> exchanged (sym c) pos1 pos2 a1 a2 ss ss' ->
  exists d, calc_delta_lampamD_swap c cos_sin a1 a2 pos1 pos2 (Z.of_nat (length ss)) = Ok d /\ length d = 4%nat /\
    forall k, (k < 4)%nat -> (flexural cos_sin ss' k == flexural cos_sin ss k + nth k d 0)%Q.
Proof.
  intros c cs a1 a2 pos1 pos2 ss ss' Hne K1 K2 [ND PG] [EL EX].
  assert (Hn : (0 < length ss)%nat) by (destruct ss; [congruence|cbn; lia]).
  unfold calc_delta_lampamD_swap.
  assert (KN : known c [a1; a2] = true).
  { unfold known; cbn [forallb]. destruct (ind_angle (set_of_angles c) a1) eqn:E1; [|destruct (ind_angle_none _ _ K1 E1)].
    destruct (ind_angle (set_of_angles c) a2) eqn:E2; [reflexivity|destruct (ind_angle_none _ _ K2 E2)]. }
  rewrite KN; cbn [negb guard bind]. destruct (Z.eqb_spec (Z.of_nat (length ss)) 0) as [X|_]; [lia|]. cbn [guard bind].
  eexists; split; [reflexivity|]. split; [reflexivity|]. intros k Hk.
  match goal with |- context [nth k (map ?f (seq 0 4)) 0%Q] => assert (NK : nth k (map f (seq 0 4)) 0%Q = f k) by (do 4 (destruct k as [|k]; [reflexivity|]); lia); rewrite NK; clear NK end.
  set (n := length ss) in *.
  assert (P1 : forall p, In p pos1 -> 1 <= p /\ (if sym c then 2 * p <= Z.of_nat n else p <= Z.of_nat n)) by (intros; apply PG, in_or_app; auto).
  assert (P2 : forall p, In p pos2 -> 1 <= p /\ (if sym c then 2 * p <= Z.of_nat n else p <= Z.of_nat n)) by (intros; apply PG, in_or_app; auto).
  rewrite !contribution_sum by (auto; intros p I; try (apply P1 in I); try (apply P2 in I); lia).
  assert (ND2 : NoDup pos2) by (clear - ND; induction pos1 as [|x t IH]; cbn in ND; auto; inversion ND; auto).
  assert (ND1 : NoDup pos1).
  { clear - ND; induction pos1 as [|x t IH]; [constructor|]; cbn in ND; inversion ND as [|? ? A B]; subst; constructor; auto. intros I; apply A, in_or_app; auto. }
  assert (DJ : forall p, In p pos1 -> In p pos2 -> False).
  { clear - ND. induction pos1 as [|x t IH]; cbn in *; [tauto|]. inversion ND; subst. intros p [->|I] J; [apply H1, in_or_app; auto|eapply IH; eauto]. }
  set (I1 := fun i => (ind (mem (Z.of_nat i + 1) pos1) * weight n i + (if sym c then ind (mem (Z.of_nat n - Z.of_nat i) pos1) * weight n i else 0))%Q).
  set (I2 := fun i => (ind (mem (Z.of_nat i + 1) pos2) * weight n i + (if sym c then ind (mem (Z.of_nat n - Z.of_nat i) pos2) * weight n i else 0))%Q).
  assert (PW : (flexural cs ss' k == flexural cs ss k + ((cs a2 k - cs a1 k) * sum_to n I1 + (cs a1 k - cs a2 k) * sum_to n I2))%Q).
  { unfold flexural. rewrite EL. fold n. rewrite <- (sum_to_times n (cs a2 k - cs a1 k) I1), <- (sum_to_times n (cs a1 k - cs a2 k) I2).
    rewrite <- (sum_to_plus n (fun i => ((cs a2 k - cs a1 k) * I1 i)%Q) (fun i => ((cs a1 k - cs a2 k) * I2 i)%Q)), <- sum_to_plus.
    apply sum_to_ext. intros i Hi. destruct (EX i Hi) as [E1 [E2 E3]]. unfold in_group in *. fold n in E1, E2, E3. unfold I1, I2.
    assert (M1 := mem_in (Z.of_nat i + 1) pos1). assert (M2 := mem_in (Z.of_nat n - Z.of_nat i) pos1).
    assert (M3 := mem_in (Z.of_nat i + 1) pos2). assert (M4 := mem_in (Z.of_nat n - Z.of_nat i) pos2).
    destruct (sym c) eqn:SY.
    - assert (X12 : mem (Z.of_nat i + 1) pos1 = true -> mem (Z.of_nat n - Z.of_nat i) pos1 = true -> False) by (intros A B; apply M1 in A; apply M2 in B; apply P1 in A; apply P1 in B; lia).
      assert (X14 : mem (Z.of_nat i + 1) pos1 = true -> mem (Z.of_nat n - Z.of_nat i) pos2 = true -> False) by (intros A B; apply M1 in A; apply M4 in B; apply P1 in A; apply P2 in B; lia).
      assert (X32 : mem (Z.of_nat i + 1) pos2 = true -> mem (Z.of_nat n - Z.of_nat i) pos1 = true -> False) by (intros A B; apply M3 in A; apply M2 in B; apply P2 in A; apply P1 in B; lia).
      assert (X34 : mem (Z.of_nat i + 1) pos2 = true -> mem (Z.of_nat n - Z.of_nat i) pos2 = true -> False) by (intros A B; apply M3 in A; apply M4 in B; apply P2 in A; apply P2 in B; lia).
      assert (X13 : mem (Z.of_nat i + 1) pos1 = true -> mem (Z.of_nat i + 1) pos2 = true -> False) by (intros A B; apply M1 in A; apply M3 in B; eapply DJ; eauto).
      assert (X24 : mem (Z.of_nat n - Z.of_nat i) pos1 = true -> mem (Z.of_nat n - Z.of_nat i) pos2 = true -> False) by (intros A B; apply M2 in A; apply M4 in B; eapply DJ; eauto).
      destruct (mem (Z.of_nat i + 1) pos1), (mem (Z.of_nat n - Z.of_nat i) pos1), (mem (Z.of_nat i + 1) pos2), (mem (Z.of_nat n - Z.of_nat i) pos2);
        try (exfalso; auto; fail); cbn [ind].
      + destruct E1 as [-> ->]; [left; apply M1; auto|]. ring.
      + destruct E1 as [-> ->]; [right; split; auto; apply M2; auto|]. ring.
      + destruct E2 as [-> ->]; [left; apply M3; auto|]. ring.
      + destruct E2 as [-> ->]; [right; split; auto; apply M4; auto|]. ring.
      + rewrite E3; [ring| |]; intros [A|[_ A]]; [apply M1 in A|apply M2 in A|apply M3 in A|apply M4 in A]; discriminate.
    - assert (X13 : mem (Z.of_nat i + 1) pos1 = true -> mem (Z.of_nat i + 1) pos2 = true -> False) by (intros A B; apply M1 in A; apply M3 in B; eapply DJ; eauto).
      destruct (mem (Z.of_nat i + 1) pos1), (mem (Z.of_nat i + 1) pos2); try (exfalso; auto; fail); cbn [ind].
      + destruct E1 as [-> ->]; [left; apply M1; auto|]. ring.
      + destruct E2 as [-> ->]; [left; apply M3; auto|]. ring.
      + rewrite E3; [ring| |]; intros [A|[A _]]; try discriminate; [apply M1 in A|apply M3 in A]; discriminate. }
  rewrite PW. unfold I1, I2. rewrite !sums_of_group by auto.
  set (S1 := sumQ (map (at_pos n) pos1)). set (S2 := sumQ (map (at_pos n) pos2)). clearbody S1 S2. destruct (sym c); field.
Qed.
Print Assumptions C86_swap_is_exact.

(** ** C86: blocks of the same size, each given by its first position, which counts from 1 *)
Definition block_of (first : Z) (size : nat) (p : Z) : Prop := first <= p < first + Z.of_nat size.
Lemma arange_in first size p : In p (arange first size) <-> block_of first size p.
Proof.
  unfold arange, block_of; rewrite in_map_iff; split.
  - intros [k [<- I]]; apply in_seq in I; lia.
  - intros H; exists (Z.to_nat (p - first)); split; [lia|]. apply in_seq; lia.
Qed.
Lemma arange_nodup first size : NoDup (arange first size).
Proof. unfold arange. apply FinFun.Injective_map_NoDup; [intros a b; lia|apply seq_NoDup]. Qed.

Theorem C86_blocks : forall c cos_sin a1 a2 first1 first2 size ss ss',
  ss <> [] -> In a1 (set_of_angles c) -> In a2 (set_of_angles c) ->
  1 <= first1 -> first1 + Z.of_nat size <= first2 ->
  (if sym c then 2 * (first2 + Z.of_nat size - 1) <= Z.of_nat (length ss) else first2 + Z.of_nat size - 1 <= Z.of_nat (length ss)) ->
  exchanged (sym c) (arange first1 size) (arange first2 size) a1 a2 ss ss' ->
  exists d, calc_delta_lampamD_swap_1 c cos_sin a1 a2 first1 first2 size (Z.of_nat (length ss)) = Ok d /\
    forall k, (k < 4)%nat -> (flexural cos_sin ss' k == flexural cos_sin ss k + nth k d 0)%Q.
Proof.
  intros c cs a1 a2 f1 f2 size ss ss' Hne K1 K2 H1 H2 H3 EX.
  destruct (C86_swap_is_exact c cs a1 a2 (arange f1 size) (arange f2 size) ss ss' Hne K1 K2) as [d [E [_ D]]]; auto; [|exists d; auto].
  split.
  - apply Properties_subset.NoDup_app'; [apply arange_nodup|apply arange_nodup|]. intros p I J; apply arange_in in I; apply arange_in in J; unfold block_of in *; lia.
  - intros p I; apply in_app_or in I; destruct I as [I|I]; apply arange_in in I; unfold block_of in I; destruct (sym c); lia.
Qed.
Print Assumptions C86_blocks.

(** ** C86: the repair of the flexural properties passes positions that count from 0, and the
    change it works with is that of the plies one position before *)
Theorem C86_repair_uses_shifted_positions : forall c cos_sin a1 a2 p1 p2 size n k d,
  calc_delta_lampamD_swap_1 c cos_sin a1 a2 (Z.of_nat p1) (Z.of_nat p2) size (Z.of_nat n) = Ok d -> (k < 4)%nat ->
  (swap_delta c cos_sin n a1 a2 p1 p2 size k == nth k d 0)%Q.
Proof.
  intros c cs a1 a2 p1 p2 size n k d E Hk. unfold calc_delta_lampamD_swap_1, calc_delta_lampamD_swap in E.
  destruct (guard _ KeyError); [|discriminate]; cbn [bind] in E. destruct (Z.eqb_spec (Z.of_nat n) 0) as [X|X]; [discriminate|]; cbn [guard bind] in E.
  match type of E with Ok ?x = Ok _ => assert (Ed : d = x) by congruence; subst d end.
  match goal with |- context [nth k (map ?f (seq 0 4)) 0%Q] => assert (NK : nth k (map f (seq 0 4)) 0%Q = f k) by (do 4 (destruct k as [|k]; [reflexivity|]); lia); rewrite NK; clear NK end.
  assert (S : forall p factor g, (contribution factor g (z_2 (Z.of_nat n) (arange (Z.of_nat p) size)) k == factor * (g k * z2_sum n p size))%Q).
  { intros p factor g. unfold contribution, z_2, arange, z2_sum. induction (seq 0 size) as [|j t IH]; cbn [map]; [change (sumQ []) with 0%Q; ring|].
    change (sumQ (?a :: ?l)) with (a + sumQ l)%Q. match goal with |- (?f * (?a + ?b) == _)%Q => assert (D : (f * (a + b) == f * a + f * b)%Q) by ring; rewrite D, IH; clear D IH end.
    unfold z2, qn, cube. rewrite Nat2Z.inj_add. set (T := sumQ _); clearbody T. field. }
  rewrite !S. unfold swap_delta. unfold qn. set (A := z2_sum n p1 size); set (B := z2_sum n p2 size); clearbody A B.
  assert (N0 : ~ (inject_Z (Z.of_nat n) == 0)%Q) by (change 0%Q with (inject_Z 0); rewrite inject_Z_injective; lia).
  unfold cube. destruct (sym c); field; auto.
Qed.
Print Assumptions C86_repair_uses_shifted_positions.

(** with positions that count from 0 the change is wrong *)
Definition cs_example (a : Z) (k : nat) : Q := if a =? 0 then 1%Q else (-1)%Q.
Theorem C86_zero_based_positions_refuted : ~ (forall c cos_sin a1 a2 p1 p2 size ss ss' k,
  In a1 (set_of_angles c) -> In a2 (set_of_angles c) -> (k < 4)%nat -> (1 <= size)%nat -> (p1 + size <= p2)%nat -> (p2 + size <= length ss)%nat -> sym c = false ->
  exchanged false (arange (Z.of_nat p1 + 1) size) (arange (Z.of_nat p2 + 1) size) a1 a2 ss ss' ->
  (flexural cos_sin ss' k == flexural cos_sin ss k + swap_delta c cos_sin (length ss) a1 a2 p1 p2 size k)%Q).
Proof.
  intros H.
  specialize (H cons_asym cs_example 0 90 0%nat 1%nat 1%nat [0; 90; 45; -45] [90; 0; 45; -45] 0%nat).
  assert (X : exchanged false (arange (Z.of_nat 0 + 1) 1) (arange (Z.of_nat 1 + 1) 1) 0 90 [0; 90; 45; -45] [90; 0; 45; -45]).
  { split; [reflexivity|]. unfold in_group, arange; cbn [length]. intros i Hi. do 4 (destruct i as [|i]; [cbn; intuition (try lia; congruence)|]). lia. }
  assert (F : (flexural cs_example [90; 0; 45; -45]%Z 0%nat == flexural cs_example [0; 90; 45; -45]%Z 0%nat + swap_delta cons_asym cs_example 4%nat 0%Z 90%Z 0%nat 1%nat 1%nat 0%nat)%Q).
  { apply H; try exact X; cbn; try lia; auto; tauto. }
  revert F; vm_compute; discriminate.
Qed.
Print Assumptions C86_zero_based_positions_refuted.

(** ** C86: nothing changes when both groups have the same angle, and exchanging back undoes *)
Theorem C86_opposite : forall c cos_sin a1 a2 pos1 pos2 n d e k,
  calc_delta_lampamD_swap c cos_sin a1 a2 pos1 pos2 n = Ok d -> calc_delta_lampamD_swap c cos_sin a2 a1 pos1 pos2 n = Ok e -> (k < 4)%nat ->
  (nth k d 0 + nth k e 0 == 0)%Q.
Proof.
  intros c cs a1 a2 pos1 pos2 n d e k D E Hk. unfold calc_delta_lampamD_swap in *.
  destruct (guard (negb (known c [a1; a2])) KeyError); [|discriminate]. destruct (guard (negb (known c [a2; a1])) KeyError); [|discriminate]. cbn [bind] in *.
  destruct (guard (n =? 0) ZeroDivision); [|discriminate]; cbn [bind] in *.
  match type of E with Ok ?x = Ok _ => assert (Ed : e = x) by congruence; subst e end.
  match type of D with Ok ?x = Ok _ => assert (Ed : d = x) by congruence; subst d end.
  assert (NK : forall f : nat -> Q, nth k (map f (seq 0 4)) 0%Q = f k) by (intros; do 4 (destruct k as [|k]; [reflexivity|]); lia).
  rewrite !NK. ring.
Qed.
Print Assumptions C86_opposite.

Example C86_example : exists d,
  calc_delta_lampamD_swap cons_asym cs_example 0 90 [1] [2] 4 = Ok d /\ (nth 0 d 0 == - (3 # 4))%Q /\
  (flexural cs_example [90; 0; 45; -45]%Z 0%nat == flexural cs_example [0; 90; 45; -45]%Z 0%nat - (3 # 4))%Q /\
  proper_groups (sym cons_asym) 4 [1] [2].
Proof.
  eexists; split; [vm_compute; reflexivity|]. split; [vm_compute; reflexivity|]. split; [vm_compute; reflexivity|].
  split; [repeat constructor; cbn; intuition lia|]. cbn. intros p [<-|[<-|[]]]; lia.
Qed.
