(* Repair10Proofs.v - proofs about Repair10.v *)
From Coq Require Import Qround Lqa.
From Verif Require Import Base Constraints ConstraintsProofs SpecGuidelines Divide DivideProofs Moments MomentsProofs Repair10.
Local Open Scope Z_scope.

(* ------------------------------------------------------------------ *)
(** * lists *)
Lemma ccons a b l : count a (b :: l) = (if b =? a then 1 else 0) + count a l.
Proof. rewrite count_cons. destruct (Z.eq_dec b a), (Z.eqb_spec b a); congruence. Qed.

Lemma remove1_count a l x : In a l -> count x (remove1 a l) = count x l - (if x =? a then 1 else 0).
Proof.
  induction l as [|b l IH]; [intros []|]. intros [->|H]; cbn [remove1].
  - rewrite Z.eqb_refl, ccons. rewrite (Z.eqb_sym x a). destruct (Z.eqb_spec a x); subst; lia.
  - destruct (Z.eqb_spec b a) as [->|N].
    + rewrite ccons. rewrite (Z.eqb_sym x a). destruct (Z.eqb_spec a x); subst; lia.
    + rewrite !ccons, IH by exact H. lia.
Qed.
Lemma remove1_length a l : In a l -> zlen (remove1 a l) = zlen l - 1.
Proof.
  unfold zlen. induction l as [|b l IH]; [intros []|]. intros [->|H]; cbn [remove1].
  - rewrite Z.eqb_refl. cbn [length]; lia.
  - destruct (Z.eqb b a); cbn [length]; [lia|]. specialize (IH H). lia.
Qed.

Lemma extra_45_length m : zlen (extra_45 m) = Z.max 0 m.
Proof. unfold zlen, extra_45. rewrite map_length, seq_length. lia. Qed.
Lemma extra_45_count m : count 45 (extra_45 m) + count (-45) (extra_45 m) = Z.max 0 m.
Proof.
  unfold extra_45. rewrite <- (Z2Nat.id (Z.max 0 m)) by lia. replace (Z.to_nat (Z.max 0 m)) with (Z.to_nat m) by lia.
  generalize (Z.to_nat m) as n. intros n; induction n as [|n IH]; [reflexivity|].
  rewrite seq_S, map_app, !count_app. cbn [map]. rewrite !ccons, !count_nil. cbn [plus].
  destruct (Nat.odd n); cbn [Z.eqb Pos.eqb]; lia.
Qed.

(* ------------------------------------------------------------------ *)
(** * the loop *)
Definition both (l q : list Z) (x : Z) : Z := count x l + count x q.

Lemma take_ply_spec ipo a q m q' m' : take_ply ipo a q m = (q', m') -> 0 <= m ->
  0 <= m' /\ zlen q + m - 1 <= zlen q' + m' <= zlen q + m + 1 /\
  (zlen q' + m' = zlen q + m + 1 -> ipo = true) /\
  (zlen q' + m' >= zlen q + m -> m' = m) /\
  (forall x, count x q <= both [a] q' x) /\
  (ipo = true -> m' = m) /\
  (ipo = true -> forall x, x <> 0 -> Z.abs x <> 90 -> both [a] q' x - both [a] q' (- x) = count x q - count (- x) q) /\
  count 45 q + count (-45) q + m <= both [a] q' 45 + both [a] q' (-45) + m'.
Proof.
  unfold take_ply, both. intros E Hm. destruct (memb a q) eqn:M.
  - apply memb_true in M. injection E as <- <-. rewrite (remove1_length _ _ M).
    repeat rewrite ccons. rewrite !count_nil.
    split; [lia|]. split; [lia|]. split; [intros; lia|]. split; [intros; lia|].
    split; [|split; [reflexivity|split; [|]]].
    + intros x. rewrite ccons, count_nil, (remove1_count _ _ _ M). rewrite (Z.eqb_sym x a). destruct (Z.eqb_spec a x); lia.
    + intros _ x N0 N90. rewrite !ccons, !count_nil, !(remove1_count _ _ _ M), (Z.eqb_sym x a), (Z.eqb_sym (- x) a).
      destruct (Z.eqb_spec a x), (Z.eqb_spec a (- x)); lia.
    + rewrite !(remove1_count _ _ _ M), (Z.eqb_sym 45 a), (Z.eqb_sym (-45) a).
      destruct (Z.eqb_spec a 45), (Z.eqb_spec a (-45)); lia.
  - injection E as <- <-. destruct ipo; cbn [andb negb].
    + destruct (negb ((a =? 0) || (a =? 90))) eqn:A.
      * rewrite zlen_app. change (zlen [- a]) with 1.
        apply negb_true_iff, orb_false_iff in A; destruct A as [A0 A9]; apply Z.eqb_neq in A0, A9.
        split; [lia|]. split; [lia|]. split; [reflexivity|]. split; [reflexivity|].
        split; [|split; [reflexivity|split]].
        -- intros x; rewrite ccons, count_nil, count_app, ccons, count_nil.
           destruct (Z.eqb_spec a x), (Z.eqb_spec (- a) x); lia.
        -- intros _ x N0 N90. rewrite !count_app, !ccons, !count_nil.
           destruct (Z.eqb_spec a x), (Z.eqb_spec (- a) x), (Z.eqb_spec a (- x)), (Z.eqb_spec (- a) (- x)); lia.
        -- rewrite !count_app, !ccons, !count_nil.
           destruct (Z.eqb_spec a 45), (Z.eqb_spec (- a) 45), (Z.eqb_spec a (-45)), (Z.eqb_spec (- a) (-45)); lia.
      * apply negb_false_iff, orb_true_iff in A. rewrite !Z.eqb_eq in A.
        split; [lia|]. split; [lia|]. split; [lia|]. split; [reflexivity|].
        split; [|split; [reflexivity|split]].
        -- intros x; rewrite ccons, count_nil. destruct (Z.eqb_spec a x); lia.
        -- intros _ x N0 N90. rewrite !ccons, !count_nil. destruct (Z.eqb_spec a x), (Z.eqb_spec a (- x)); lia.
        -- rewrite !ccons, !count_nil. destruct (Z.eqb_spec a 45), (Z.eqb_spec a (-45)); lia.
    + destruct ((a =? 45) || (a =? -45))%bool eqn:A.
      * apply orb_true_iff in A. rewrite !Z.eqb_eq in A.
        split; [lia|]. split; [lia|]. split; [lia|]. split; [lia|].
        split; [|split; [discriminate|split; [discriminate|]]].
        -- intros x; rewrite ccons, count_nil. destruct (Z.eqb_spec a x); lia.
        -- rewrite !ccons, !count_nil. destruct (Z.eqb_spec a 45), (Z.eqb_spec a (-45)); lia.
      * apply orb_false_iff in A. rewrite !Z.eqb_neq in A.
        split; [lia|]. split; [lia|]. split; [lia|]. split; [reflexivity|].
        split; [|split; [discriminate|split; [discriminate|]]].
        -- intros x; rewrite ccons, count_nil. destruct (Z.eqb_spec a x); lia.
        -- rewrite !ccons, !count_nil. destruct (Z.eqb_spec a 45), (Z.eqb_spec a (-45)); lia.
Qed.

Lemma queue_loop_spec ipo l : forall q m k q2 m2 ch,
  0 <= m -> zlen q + m <= zlen l -> queue_loop ipo l q m = (k, q2, m2, ch) ->
  let p := firstn k l in
  (k <= length l)%nat /\ 0 <= m2 /\
  (ch = false -> k = length l /\ q2 = [] /\ m2 = 0) /\
  (ch = true -> Z.of_nat k + zlen q2 + m2 = zlen l \/ (ipo = true /\ Z.of_nat k + zlen q2 + m2 + 1 = zlen l)) /\
  (forall x, count x q <= both p q2 x) /\
  (ipo = true -> m2 = m) /\
  (ipo = true -> forall x, x <> 0 -> Z.abs x <> 90 -> both p q2 x - both p q2 (- x) = count x q - count (- x) q) /\
  count 45 q + count (-45) q + m <= both p q2 45 + both p q2 (-45) + m2.
Proof.
  induction l as [|a l IH]; intros q m k q2 m2 ch Hm Hl E; cbn [queue_loop] in E.
  - injection E as <- <- <- <-. cbv zeta. cbn [firstn]. unfold zlen in Hl; cbn [length] in Hl.
    assert (q = []) as -> by (destruct q; [reflexivity|cbn [length] in Hl; lia]).
    cbn [length] in *. split; [lia|]. split; [lia|]. split; [intros; split; [reflexivity|split; [reflexivity|lia]]|]. split; [discriminate|].
    split; [intros x; unfold both; rewrite !count_nil; lia|]. split; [reflexivity|]. split; [reflexivity|]. unfold both; rewrite !count_nil; lia.
  - destruct (take_ply ipo a q m) as [q' m'] eqn:T.
    destruct (take_ply_spec _ _ _ _ _ _ T Hm) as (T1 & T2 & T3 & T4 & T5 & T6 & T7 & T8).
    assert (Zl : zlen (a :: l) = zlen l + 1) by (unfold zlen; cbn [length]; lia).
    destruct (Z.ltb_spec (zlen l) (zlen q' + m')) as [B|B].
    + injection E as <- <- <- <-. cbv zeta. cbn [firstn].
      assert (m' = m) by (apply T4; lia). subst m'.
      split; [lia|]. split; [lia|]. split; [discriminate|].
      split; [intros _; destruct (Z.eq_dec (zlen q + m) (zlen (a :: l))); [left; lia|right; split; [apply T3|]; lia]|].
      split; [intros x; unfold both; rewrite count_nil; lia|]. split; [reflexivity|].
      split; [intros _ x _ _; unfold both; rewrite !count_nil; lia|]. unfold both; rewrite !count_nil; lia.
    + destruct (queue_loop ipo l q' m') as [[[k' q3] m3] ch'] eqn:Q. injection E as <- <- <- <-. cbv zeta.
      specialize (IH q' m' k' q3 m3 ch' T1 B Q). cbv zeta in IH. destruct IH as (I1 & I2 & I3 & I4 & I5 & I6 & I7 & I8).
      cbn [firstn]. unfold both in *.
      split; [cbn [length]; lia|]. split; [exact I2|].
      split; [intros C; destruct (I3 C) as (-> & -> & ->); auto|].
      split; [intros C; destruct (I4 C) as [G|[G1 G]]; [left|right; split; [exact G1|]]; lia|].
      split; [intros x; specialize (T5 x); specialize (I5 x); rewrite !ccons, ?count_nil in *; lia|].
      split; [intros C; rewrite (I6 C); apply T6, C|].
      split; [intros C x N0 N9; specialize (I7 C x N0 N9); specialize (T7 C x N0 N9); rewrite !ccons, ?count_nil in *; lia|].
      rewrite !ccons, ?count_nil in *; lia.
Qed.

(* ------------------------------------------------------------------ *)
(** * the order of the plies and the unknown plies *)
Definition slots (sym : bool) (n : nat) : nat := if sym then (n / 2)%nat else n.

Lemma ind_plies_perm sym n : Permutation (ind_plies sym n) (seq 0 (slots sym n)).
Proof.
  destruct sym; [reflexivity|]. unfold ind_plies, slots.
  assert (n / 2 <= n)%nat by (apply Nat.div_le_upper_bound; lia).
  rewrite interleave_perm.
  2:{ rewrite rev_length, skipn_length, firstn_length, seq_length.
      pose proof (Nat.div_mod n 2 ltac:(lia)); pose proof (Nat.mod_upper_bound n 2 ltac:(lia)); lia. }
  rewrite <- Permutation_rev. rewrite Permutation_app_comm, firstn_skipn. reflexivity.
Qed.
Lemma ind_plies_length sym n : length (ind_plies sym n) = slots sym n.
Proof. rewrite (Permutation_length (ind_plies_perm sym n)), seq_length; reflexivity. Qed.
Lemma ind_plies_in sym n i : In i (ind_plies sym n) <-> (i < slots sym n)%nat.
Proof.
  split; intros H.
  - apply (Permutation_in _ (ind_plies_perm sym n)) in H. apply in_seq in H; lia.
  - apply (Permutation_in _ (Permutation_sym (ind_plies_perm sym n))). apply in_seq; lia.
Qed.
Lemma ind_plies_nodup sym n : NoDup (ind_plies sym n).
Proof. apply (Permutation_NoDup (Permutation_sym (ind_plies_perm sym n))), seq_NoDup. Qed.

Lemma forget_length sym inds ss : length (forget sym inds ss) = length ss.
Proof.
  unfold forget. revert ss; induction inds as [|i inds IH]; intros ss; [reflexivity|]. cbn [fold_left].
  rewrite IH. destruct sym; rewrite !upd_length; reflexivity.
Qed.
Lemma forget_nth sym inds : forall ss i, (forall j, In j inds -> (j < length ss)%nat) -> (i < length ss)%nat ->
  nth i (forget sym inds ss) 0 =
  if (existsb (Nat.eqb i) inds || (sym && existsb (fun j => Nat.eqb (length ss - j - 1) i) inds))%bool then 666 else nth i ss 0.
Proof.
  unfold forget. induction inds as [|j inds IH]; intros ss i Hj Hi; cbn [fold_left existsb].
  - rewrite andb_false_r. reflexivity.
  - assert (Hj0 : (j < length ss)%nat) by (apply Hj; now left).
    destruct sym.
    + rewrite IH; rewrite ?upd_length; [|intros; apply Hj; now right|lia].
      rewrite !nth_upd, !upd_length. cbn [andb].
      destruct (Nat.eqb_spec i j) as [->|N]; cbn [orb andb].
      * destruct (existsb _ _ || existsb _ _)%bool; [reflexivity|].
        destruct (Nat.eqb_spec (length ss - j - 1) j); cbn [andb]; [destruct (Nat.ltb_spec (length ss - j - 1) (length ss)); [reflexivity|lia]|].
        rewrite Nat.eqb_refl. destruct (Nat.ltb_spec j (length ss)); [reflexivity|lia].
      * destruct (existsb (Nat.eqb i) inds); cbn [orb]; [reflexivity|].
        destruct (Nat.eqb_spec (length ss - j - 1) i) as [E|E]; cbn [orb andb].
        -- destruct (existsb _ inds); [reflexivity|]. destruct (Nat.ltb_spec (length ss - j - 1) (length ss)); [reflexivity|lia].
        -- destruct (existsb _ inds); [reflexivity|]. destruct (Nat.eqb_spec j i); [congruence|]. reflexivity.
    + rewrite IH; rewrite ?upd_length; [|intros; apply Hj; now right|lia].
      rewrite !nth_upd. cbn [andb]. rewrite !orb_false_r.
      destruct (Nat.eqb_spec i j) as [->|N]; cbn [orb].
      * destruct (existsb _ _); [reflexivity|]. rewrite Nat.eqb_refl. destruct (Nat.ltb_spec j (length ss)); [reflexivity|lia].
      * destruct (existsb _ _); [reflexivity|]. destruct (Nat.eqb_spec j i); [congruence|]. reflexivity.
Qed.

(* ------------------------------------------------------------------ *)
(** * the minima *)
Lemma cdiv2 x : 2 * cdiv x 2 = x \/ 2 * cdiv x 2 = x + 1.
Proof. unfold cdiv. pose proof (Z.div_mod (- x) 2 ltac:(lia)). pose proof (Z.mod_pos_bound (- x) 2 ltac:(lia)). lia. Qed.
Lemma half_up_spec x : x <= 2 * half_up x <= x + 1.
Proof. unfold half_up. destruct (cdiv2 x); lia. Qed.
Lemma half_up_double x : half_up (2 * x) = x.
Proof. unfold half_up. destruct (cdiv2 (2 * x)); lia. Qed.

Lemma ceil_share_ge p n : (p * inject_Z (Z.of_nat n) <= inject_Z (ceil_share p n))%Q.
Proof. apply Qle_ceiling. Qed.
Lemma ceil_share_pos p n : (0 <= p)%Q -> 0 <= ceil_share p n.
Proof.
  intros H. unfold ceil_share. rewrite <- (Qceiling_Z 0). apply Qceiling_resp_le.
  apply Qmult_le_0_compat; [exact H|]. change 0%Q with (inject_Z 0). rewrite <- Zle_Qle. lia.
Qed.
Lemma ceil_share_0 p n : (p == 0)%Q -> ceil_share p n = 0.
Proof. intros H. unfold ceil_share. rewrite H. setoid_replace (0 * inject_Z (Z.of_nat n))%Q with (inject_Z 0) by (unfold inject_Z; ring). apply Qceiling_Z. Qed.

Lemma ceil_half x : Qceiling (inject_Z x / 2) = half_up x.
Proof.
  apply Z.le_antisymm.
  - rewrite <- (Qceiling_Z (half_up x)). apply Qceiling_resp_le.
    pose proof (half_up_spec x). apply Qle_shift_div_r; [reflexivity|].
    change 2%Q with (inject_Z 2). rewrite <- inject_Z_mult, <- Zle_Qle. lia.
  - pose proof (Qle_ceiling (inject_Z x / 2)) as H. pose proof (half_up_spec x).
    assert (x <= 2 * Qceiling (inject_Z x / 2)).
    { rewrite Zle_Qle, inject_Z_mult. change (inject_Z 2) with 2%Q.
      apply (Qmult_le_l _ _ 2) in H; [|reflexivity]. eapply Qle_trans; [|exact H].
      apply Qle_lteq; right; field. }
    lia.
Qed.

Lemma adjust_spec x y x' y' : 0 <= x -> 0 <= y -> adjust x y = (x', y') ->
  0 <= x' /\ 0 <= y' /\ x <= x' /\ y <= y' /\ y' <= 2 * x' /\ (x = 0 \/ 2 * x <= y + 1 -> y' = 2 * x').
Proof.
  unfold adjust. intros Hx Hy E.
  destruct (Z.odd y) eqn:Eo.
  - assert (Ho : y mod 2 = 1) by (rewrite Zmod_odd, Eo; reflexivity).
    pose proof (Z.div_mod y 2 ltac:(lia)). apply pair_equal_spec in E; destruct E as [<- <-].
    pose proof (Z.div_mod (Z.max (y + 1) (2 * x)) 2 ltac:(lia)).
    pose proof (Z.mod_pos_bound (Z.max (y + 1) (2 * x)) 2 ltac:(lia)).
    set (w := Z.max (y + 1) (2 * x) / 2) in *. assert (Z.max (y + 1) (2 * x) mod 2 = 0).
    { destruct (Z.max_spec (y + 1) (2 * x)) as [[_ ->]|[_ ->]]; [rewrite Z.mul_comm; apply Z.mod_mul; lia|].
      replace (y + 1) with ((y / 2 + 1) * 2) by lia. apply Z.mod_mul; lia. }
    lia.
  - assert (He : y mod 2 = 0) by (rewrite Zmod_odd, Eo; reflexivity).
    pose proof (Z.div_mod y 2 ltac:(lia)). apply pair_equal_spec in E; destruct E as [<- <-]. set (w := y / 2) in *. lia.
Qed.

Definition unit_of (sym : bool) : Z := if sym then 2 else 1.

Lemma calc_mini_10_spec c n : consistent c ->
  let m := calc_mini_10 c n in let u := unit_of (sym c) in
  0 <= Qceiling (mini_0 m) /\ 0 <= Qceiling (mini_90 m) /\ 0 <= mini_45 m /\ 0 <= mini_135 m /\ 0 <= mini_45_135 m /\
  (ipo c = true -> mini_45 m = mini_135 m) /\
  0 <= first_missing c m /\ (ipo c = true -> first_missing c m = 0) /\
  mini_45_135 m <= mini_45 m + mini_135 m + first_missing c m /\
  ceil_share (percent_0 c) n <= u * Qceiling (mini_0 m) /\ ceil_share (percent_90 c) n <= u * Qceiling (mini_90 m) /\
  ceil_share (percent_45 c) n <= u * mini_45 m /\ ceil_share (percent_135 c) n <= u * mini_135 m /\
  ceil_share (percent_45_135 c) n <= u * mini_45_135 m.
Proof.
  intros K m u.
  destruct (k_pct _ K) as ((P0 & _) & (P45 & _) & (P90 & _) & (P135 & _) & (Ppm & _)).
  pose proof (ceil_share_pos _ n P0) as A0. pose proof (ceil_share_pos _ n P45) as A45.
  pose proof (ceil_share_pos _ n P90) as A90. pose proof (ceil_share_pos _ n P135) as A135.
  pose proof (ceil_share_pos _ n Ppm) as Apm.
  assert (Off : rule_10_percent c = false -> ceil_share (percent_45_135 c) n = 0).
  { intros R. destruct (k_pct_off _ K (or_introl R)) as (_ & _ & _ & _ & Z5 & _). apply ceil_share_0; exact Z5. }
  assert (Zpm : Qeq_bool (percent_45_135 c) 0 = true -> ceil_share (percent_45_135 c) n = 0).
  { intros E; apply ceil_share_0, Qeq_bool_iff; exact E. }
  assert (One : Qeq_bool (percent_45_135 c) 0 = false -> ceil_share (percent_45 c) n = 0 /\ ceil_share (percent_135 c) n = 0).
  { intros Eq. destruct (k_one45 _ K) as [Z|[Z1 Z2]]; [apply Qeq_bool_iff in Z; congruence|]. split; apply ceil_share_0; assumption. }
  unfold m, calc_mini_10, first_missing, u, unit_of.
  set (a0 := ceil_share (percent_0 c) n) in *. set (a90 := ceil_share (percent_90 c) n) in *.
  set (a45 := ceil_share (percent_45 c) n) in *. set (a135 := ceil_share (percent_135 c) n) in *.
  set (apm := ceil_share (percent_45_135 c) n) in *.
  pose proof (half_up_spec a0) as H0. pose proof (half_up_spec a90) as H90.
  assert (S0 : Qceiling (if Nat.odd n then (inject_Z a0 / 2)%Q else inject_Z (half_up a0)) = half_up a0)
    by (destruct (Nat.odd n); [apply ceil_half|apply Qceiling_Z]).
  assert (S90 : Qceiling (if Nat.odd n then (inject_Z a90 / 2)%Q else inject_Z (half_up a90)) = half_up a90)
    by (destruct (Nat.odd n); [apply ceil_half|apply Qceiling_Z]).
  assert (On : (if (rule_10_percent c && negb (Qeq_bool (percent_45_135 c) 0))%bool then True else apm = 0) /\
               ((rule_10_percent c && negb (Qeq_bool (percent_45_135 c) 0))%bool = true -> a45 = 0 /\ a135 = 0)).
  { destruct (rule_10_percent c); cbn [andb]; [|split; [auto|discriminate]].
    destruct (Qeq_bool (percent_45_135 c) 0); cbn [negb]; split; auto; discriminate. }
  clear One Zpm Off. destruct On as [On1 On2].
  destruct (rule_10_percent c && negb (Qeq_bool (percent_45_135 c) 0))%bool eqn:B;
    [specialize (On2 eq_refl); clear On1; destruct On2 as [On2 On3]|clear On2];
  destruct (ipo c) eqn:Ei; destruct (sym c) eqn:Es.
  all: try (destruct (adjust (Z.max a45 a135) apm) as [x y] eqn:E1;
    destruct (adjust_spec (Z.max a45 a135) apm _ _ ltac:(lia) Apm E1) as (X1 & X2 & X3 & X4 & X5 & X6);
    pose proof (half_up_spec x) as Hx; pose proof (half_up_spec y) as Hy).
  all: try (destruct (adjust (half_up x) (half_up y)) as [x2 y2] eqn:E2;
    destruct (adjust_spec (half_up x) (half_up y) _ _ ltac:(lia) ltac:(lia) E2) as (Y1 & Y2 & Y3 & Y4 & Y5 & Y6)).
  all: pose proof (half_up_spec a45) as G45; pose proof (half_up_spec a135) as G135; pose proof (half_up_spec apm) as Gpm.
  all: cbn [mini_0 mini_90 mini_45 mini_135 mini_45_135]; rewrite ?S0, ?S90, ?Qceiling_Z.
  - assert (y = 2 * x) by (apply X6; lia). subst y. rewrite half_up_double in *.
    assert (y2 = 2 * x2) by (apply Y6; lia). lia.
  - assert (y = 2 * x) by (apply X6; lia). lia.
  - lia.
  - lia.
  - lia.
  - lia.
  - lia.
  - lia.
Qed.
