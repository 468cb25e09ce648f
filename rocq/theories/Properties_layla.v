(* Properties_layla.v - property theorems C71-C77 (the single-laminate optimiser LAYLA). *)
From Coq Require Import Lqa Qminmax.
From Verif Require Import Base Uniq Divers DiversProofs Spacing Constraints Guidelines Strip Format FormatProofs Divide DivideProofs
  Moments MomentsProofs Properties_moments Search Panel Layla.
Local Open Scope Z_scope.

(* ------------------------------------------------------------------ *)
(** ** C71 *)

(** the plies p, p + 1, ..., p + k - 1 *)
Definition plies_from (p k : Z) : list Z := map (fun i => p + Z.of_nat i) (seq 0 (Z.to_nat k)).

Lemma plies_from_app p a b : 0 <= a -> 0 <= b -> plies_from p (a + b) = plies_from p a ++ plies_from (p + a) b.
Proof.
  intros A B. unfold plies_from. rewrite Z2Nat.inj_add by lia. rewrite seq_app, map_app. f_equal.
  cbn [Nat.add]. rewrite <- (Nat.add_0_r (Z.to_nat a)) at 1.
  generalize (Z.to_nat b) as m. generalize 0%nat as k. intros k m. revert k.
  induction m as [|m IH]; intros k; cbn [seq map]; [reflexivity|]. f_equal; [lia|].
  rewrite <- IH. f_equal. f_equal. lia.
Qed.

Lemma first_plies_tile : forall l s, (forall x, In x l -> 0 <= x) ->
  flat_map (fun g => plies_from (fst g) (snd g)) (List.combine (first_plies s l) l) = plies_from s (sumZ l).
Proof.
  induction l as [|x l IH]; intros s H; [reflexivity|].
  cbn [first_plies List.combine flat_map fst snd]. rewrite IH by (intros; apply H; right; auto).
  rewrite sumZ_cons. assert (0 <= sumZ l).
  { clear -H. induction l as [|y l IH]; [cbn; lia|]. rewrite sumZ_cons. specialize (IH (fun z Hz => H z (match Hz with or_introl e => or_introl e | or_intror i => or_intror (or_intror i) end))).
    pose proof (H y (or_intror (or_introl eq_refl))). lia. }
  rewrite plies_from_app; auto. apply H; left; auto.
Qed.

Lemma evens_perm {A} (l : list A) : Permutation (evens l ++ rev (odds l)) l.
Proof.
  rewrite <- Permutation_rev. induction l using evens_odds_ind; cbn [evens odds]; auto.
  cbn [app]. constructor. rewrite <- Permutation_middle. constructor. auto.
Qed.

Lemma evens_combine {A B} (l : list A) : forall m : list B, length l = length m ->
  evens (List.combine l m) = List.combine (evens l) (evens m) /\ odds (List.combine l m) = List.combine (odds l) (odds m).
Proof.
  induction l using evens_odds_ind; intros m H.
  - destruct m; cbn in *; auto; lia.
  - destruct m as [|b [|c m]]; cbn in *; auto; lia.
  - destruct m as [|c [|d m]]; try (cbn in H; lia). cbn [List.combine evens odds].
    destruct (IHl m ltac:(cbn in H; lia)) as [E1 E2]. rewrite E1, E2. auto.
Qed.

Lemma combine_app' {A B} (a a' : list A) (b b' : list B) : length a = length b ->
  List.combine (a ++ a') (b ++ b') = List.combine a b ++ List.combine a' b'.
Proof. revert b; induction a as [|x a IH]; intros [|y b] H; cbn in *; try lia; auto. rewrite IH by lia; auto. Qed.

Lemma combine_rev {A B} (a : list A) : forall b : list B, length a = length b ->
  List.combine (rev a) (rev b) = rev (List.combine a b).
Proof.
  induction a as [|x a IH]; intros [|y b] H; cbn in *; try lia; auto.
  rewrite combine_app' by (rewrite !rev_length; lia). rewrite IH by lia. reflexivity.
Qed.

Lemma asym_first_plies_length s l : length (asym_first_plies s l) = length l.
Proof.
  pose proof (asym_first_plies_spec s l) as E. apply (f_equal (@length _)) in E.
  rewrite first_plies_length, !app_length, !rev_length in E.
  destruct (evens_odds_length l), (evens_odds_length (asym_first_plies s l)). lia.
Qed.

Lemma asym_tile l s : (forall x, In x l -> 0 <= x) ->
  Permutation (flat_map (fun g => plies_from (fst g) (snd g)) (List.combine (asym_first_plies s l) l)) (plies_from s (sumZ l)).
Proof.
  intros H. set (p := asym_first_plies s l).
  assert (L : length p = length l) by apply asym_first_plies_length.
  assert (E : evens (List.combine p l) ++ rev (odds (List.combine p l)) =
    List.combine (first_plies s (evens l ++ rev (odds l))) (evens l ++ rev (odds l))).
  { rewrite <- asym_first_plies_spec. fold p. destruct (evens_combine p l L) as [E1 E2]. rewrite E1, E2.
    destruct (evens_odds_length l), (evens_odds_length p).
    rewrite combine_app' by lia. rewrite combine_rev by lia. reflexivity. }
  rewrite <- (evens_perm (List.combine p l)) at 1. rewrite E.
  rewrite first_plies_tile.
  - replace (sumZ (evens l ++ rev (odds l))) with (sumZ l); auto.
    pose proof (evens_perm l) as P. clear -P. induction P; rewrite ?sumZ_cons in *; try lia.
  - intros x Hx. apply H. eapply Permutation_in; [apply evens_perm|exact Hx].
Qed.

Lemma first_plies_snoc : forall l s x y, first_plies s (l ++ [x]) = first_plies s (l ++ [y]).
Proof. induction l as [|a l IH]; intros s x y; cbn [app first_plies]; auto. rewrite (IH _ x y); auto. Qed.

Lemma upd_snoc {A} (l : list A) x y : upd (length l) y (l ++ [x]) = l ++ [y].
Proof. induction l as [|a l IH]; cbn; auto. rewrite IH; auto. Qed.

Lemma sumZ_app l m : sumZ (l ++ m) = sumZ l + sumZ m.
Proof. induction l as [|a l IH]; cbn [app]; rewrite ?sumZ_cons; [reflexivity|]. lia. Qed.

(** Whenever the plies (half the plies of a symmetric laminate) can be divided into groups of the
    requested sizes, a division is found with as few groups as possible. Every group has an
    admissible size, except that the middle ply of a symmetric laminate joins the last group.
    Every ply to be determined (the lower half with the middle ply, or all plies) belongs to
    exactly one group *)
Theorem C71_division_partial : forall (sym : bool) gmin gmax step n gm,
  get gmax step = Ok gm -> 1 <= gmin <= gm -> 0 <= n ->
  let h := if sym then n / 2 else n in
  let middle := if sym then n mod 2 else 0 in
  (exists l0, l0 <> [] /\ (forall x, In x l0 -> gmin <= x <= gm) /\ sumZ l0 = h) ->
  exists sizes last_size positions,
    divide_laminate sym gmin gmax step n = Ok (sizes ++ [last_size], positions, zlen sizes + 1) /\
    (forall x, In x sizes -> gmin <= x <= gm) /\ gmin <= last_size - middle <= gm /\
    sumZ sizes + last_size = h + middle /\
    (forall l', l' <> [] -> (forall x, In x l' -> gmin <= x <= gm) -> sumZ l' = h -> zlen sizes + 1 <= zlen l') /\
    length positions = length (sizes ++ [last_size]) /\
    Permutation (flat_map (fun g => plies_from (fst g) (snd g)) (List.combine positions (sizes ++ [last_size])))
                (plies_from 0 (h + middle)).
Proof.
  intros sym gmin gmax step n gm Hm Hg Hn h middle Hex.
  destruct (divide_ok sym {| g_min := gmin; g_max := gm |} n Hg Hex) as [k [l [E [L [[Ne [B S1]] M]]]]].
  cbn [g_min g_max] in B. fold h in S1, M.
  destruct (exists_last Ne) as [sz [x ->]].
  assert (Lk : k = zlen sz + 1) by (rewrite <- L, zlen_app; reflexivity).
  assert (Bs : forall y, In y sz -> gmin <= y <= gm) by (intros; apply B, in_or_app; auto).
  assert (Bx : gmin <= x <= gm) by (apply B, in_or_app; right; left; auto).
  rewrite sumZ_app, sumZ_cons in S1. cbn [sumZ fold_right] in S1.
  assert (Mid : middle = if (sym && (n mod 2 =? 1))%bool then 1 else 0).
  { unfold middle. destruct sym; cbn [andb]; auto. pose proof (Z.mod_pos_bound n 2 ltac:(lia)).
    destruct (Z.eqb_spec (n mod 2) 1); lia. }
  set (p := if sym then first_plies 0 (sz ++ [x]) else asym_first_plies 0 (sz ++ [x])).
  exists sz, (x + middle), p.
  split; [|split; [|split; [|split; [|split; [|split]]]]]; auto; try lia.
  - unfold divide_laminate. rewrite Hm. cbn [bind]. rewrite E. cbn [bind]. fold p.
    rewrite app_length. cbn [length]. replace (length sz + 1 - 1)%nat with (length sz) by lia.
    rewrite app_nth2 by lia. rewrite Nat.sub_diag. cbn [nth]. rewrite upd_snoc, Lk, Mid.
    destruct (sym && (n mod 2 =? 1))%bool; repeat f_equal. lia.
  - intros l' A1 A2 A3. rewrite <- Lk. apply M. split; auto.
  - unfold p. destruct sym; rewrite ?first_plies_length, ?asym_first_plies_length, !app_length; auto.
  - assert (Pos : forall y, In y (sz ++ [x + middle]) -> 0 <= y).
    { intros y Hy. apply in_app_or in Hy as [Hy|[<-|[]]]; [apply Bs in Hy; lia|].
      rewrite Mid; destruct (sym && (n mod 2 =? 1))%bool; lia. }
    assert (Su : sumZ (sz ++ [x + middle]) = h + middle) by (rewrite sumZ_app, sumZ_cons; cbn [sumZ fold_right]; change (fold_right Z.add 0 sz) with (sumZ sz); lia).
    rewrite <- Su. unfold p. destruct sym.
    + rewrite (first_plies_snoc sz 0 x (x + middle)), first_plies_tile by auto. reflexivity.
    + replace (x + middle) with x in * by (unfold middle; lia). apply asym_tile; auto.
Qed.
Print Assumptions C71_division_partial.

(** when there is no division an exception is raised; the size limit of a step that was not
    given is an index error *)
Theorem C71_no_division : forall (sym : bool) gmin gmax step n,
  (forall gm, get gmax step = Ok gm -> 1 <= gmin <= gm /\
    ~ exists l0, l0 <> [] /\ (forall x, In x l0 -> gmin <= x <= gm) /\ sumZ l0 = if sym then n / 2 else n) ->
  exists e, divide_laminate sym gmin gmax step n = Err e.
Proof.
  intros sym gmin gmax step n H. unfold divide_laminate. destruct (get gmax step) as [gm|e] eqn:Hm; cbn [bind]; [|eauto].
  destruct (H gm eq_refl) as [Hg N].
  destruct (divide_err sym {| g_min := gmin; g_max := gm |} n Hg N) as [e E]. exists e. rewrite E. reflexivity.
Qed.
Print Assumptions C71_no_division.

(** refuted: the group of the middle ply can be larger than the maximum *)
Theorem C71_maximum_size_refuted : ~ (forall sym gmin gmax step n gm sizes p k,
  get gmax step = Ok gm -> 1 <= gmin <= gm -> divide_laminate sym gmin gmax step n = Ok (sizes, p, k) ->
  forall x, In x sizes -> x <= gm).
Proof.
  intros H. specialize (H true 3 [5] 0 21 5 [5; 6] [0; 5] 2 eq_refl ltac:(lia) eq_refl 6 ltac:(cbn; auto)). lia.
Qed.
Print Assumptions C71_maximum_size_refuted.

(** a single ply under symmetry cannot be divided: there is nothing in the lower half *)
Theorem C71_single_ply_refuted : ~ (forall (sym : bool) gmin gmax n,
  1 <= gmin <= n -> n <= gmax -> exists r, divide_laminate sym gmin [gmax] 0 n = Ok r).
Proof. intros H. destruct (H true 1 5 1 ltac:(lia) ltac:(lia)) as [r E]. vm_compute in E. discriminate. Qed.
Print Assumptions C71_single_ply_refuted.

Example C71_example :
  divide_laminate true 3 [5] 0 21 = Ok ([5; 6], [0; 5], 2) /\
  divide_laminate false 3 [6] 0 20 = Ok ([3; 5; 6; 6], [0; 15; 3; 9], 4) /\
  (exists l0, l0 <> [] /\ (forall x, In x l0 -> 3 <= x <= 6) /\ sumZ l0 = 20).
Proof.
  split; [reflexivity|]. split; [reflexivity|]. exists [5; 5; 5; 5]. split; [discriminate|]. split; [|reflexivity].
  intros x Hx. cbn in Hx. lia.
Qed.

(* ------------------------------------------------------------------ *)
(** ** C72 *)

Lemma take_levels_ok order : forall k i, (i + k <= length order)%nat ->
  take_levels order (Z.of_nat i) k = Ok (firstn k (skipn i order)).
Proof.
  induction k as [|k IH]; intros i H; [rewrite firstn_O; reflexivity|]. cbn [take_levels].
  rewrite (get_ok order i 0%nat) by lia. cbn [bind].
  replace (Z.of_nat i + 1) with (Z.of_nat (S i)) by lia. rewrite IH by lia. cbn [bind].
  assert (E : skipn i order = nth i order 0%nat :: skipn (S i) order).
  { clear -H. revert i H; induction order as [|a o IH]; intros i H; [cbn in H; lia|].
    destruct i as [|i]; [reflexivity|]. cbn [skipn nth]. rewrite (IH i) by (cbn in H; lia). reflexivity. }
  rewrite E. reflexivity.
Qed.

Lemma take_levels_err order : forall k i, (i <= length order)%nat -> (length order < i + k)%nat -> take_levels order (Z.of_nat i) k = Err IndexError.
Proof.
  induction k as [|k IH]; intros i Hi0 H; cbn [take_levels].
  - lia.
  - destruct (Nat.lt_ge_cases i (length order)) as [Hi|Hi].
    + rewrite (get_ok order i 0%nat) by lia. cbn [bind]. replace (Z.of_nat i + 1) with (Z.of_nat (S i)) by lia.
      rewrite IH by lia. reflexivity.
    + unfold get, py_get, zlen. destruct (Z.leb_spec 0 (Z.of_nat i)); [|lia]. destruct (Z.ltb_spec (Z.of_nat i) (Z.of_nat (length order))); [lia|]. reflexivity.
Qed.

Lemma levels_from_spec order : forall sizes i, (forall x, In x sizes -> 0 <= x) -> (i <= length order)%nat ->
  (Z.of_nat i + sumZ sizes <= zlen order ->
   exists levels, levels_from order (Z.of_nat i) sizes = Ok levels /\ map zlen levels = sizes /\
     concat levels = firstn (Z.to_nat (sumZ sizes)) (skipn i order)) /\
  (zlen order < Z.of_nat i + sumZ sizes -> levels_from order (Z.of_nat i) sizes = Err IndexError).
Proof.
  induction sizes as [|s sizes IH]; intros i H Hi.
  - split; [|cbn; unfold zlen; lia]. intros _. exists []. repeat split.
  - pose proof (H s (or_introl eq_refl)) as Hs. specialize (IH (i + Z.to_nat s)%nat (fun x Hx => H x (or_intror Hx))).
    assert (N : 0 <= sumZ sizes).
    { pose proof (sumZ_ge_const sizes 0 (fun x Hx => H x (or_intror Hx))). lia. }
    rewrite sumZ_cons. cbn [levels_from]. replace (Z.max 0 s) with s by lia.
    replace (Z.of_nat i + s) with (Z.of_nat (i + Z.to_nat s)) by lia.
    unfold zlen in *. destruct (Nat.le_gt_cases (i + Z.to_nat s) (length order)) as [L|L].
    + rewrite take_levels_ok by lia. cbn [bind]. destruct (IH L) as [IH1 IH2]. split; intros B.
      * destruct IH1 as [levels [E1 [E2 E3]]]; [lia|]. rewrite E1. cbn [bind]. eexists; split; [reflexivity|].
        cbn [map concat]. rewrite E2, E3. split.
        -- rewrite firstn_length, skipn_length. f_equal. lia.
        -- rewrite Z2Nat.inj_add by lia. transitivity (firstn (Z.to_nat s + Z.to_nat (sumZ sizes)) (firstn (Z.to_nat s) (skipn i order) ++ skipn (Z.to_nat s) (skipn i order))); [|rewrite firstn_skipn; reflexivity].
           rewrite firstn_app. rewrite (firstn_all2 (n := Z.to_nat s + Z.to_nat (sumZ sizes))) by (rewrite firstn_length; lia).
           f_equal. rewrite firstn_length, skipn_length.
           replace (Z.to_nat s + Z.to_nat (sumZ sizes) - Nat.min (Z.to_nat s) (length order - i))%nat with (Z.to_nat (sumZ sizes)) by lia.
           f_equal. rewrite skipn_skipn. f_equal. lia.
      * rewrite IH2 by lia. reflexivity.
    + split; [lia|]. intros _. rewrite take_levels_err by lia. reflexivity.
Qed.

(** When the groups have as many plies as there are plies to determine, every group is given as
    many plies as its size, and the groups in turn list the plies in the order of optimisation:
    no ply is forgotten or given twice. Too large groups are an index error *)
Theorem C72_levels : forall order sizes, (forall x, In x sizes -> 0 <= x) ->
  (sumZ sizes = zlen order -> exists levels, calc_levels order sizes = Ok levels /\ map zlen levels = sizes /\ concat levels = order) /\
  (zlen order < sumZ sizes -> calc_levels order sizes = Err IndexError).
Proof.
  intros order sizes H. destruct (levels_from_spec order sizes 0 H ltac:(lia)) as [A B]. split; intros E.
  - destruct A as [levels [E1 [E2 E3]]]; [lia|]. exists levels. split; auto. split; auto.
    rewrite E3, E. cbn [skipn]. unfold zlen. rewrite Nat2Z.id. apply firstn_all.
  - apply B. lia.
Qed.
Print Assumptions C72_levels.

(** the division of a laminate always fits: every ply of the lower half (symmetric) or of the
    laminate is given to exactly one group *)
Theorem C72_levels_of_division : forall (sym : bool) gmin gmax step n sizes p k gm,
  get gmax step = Ok gm -> 1 <= gmin <= gm ->
  divide_laminate sym gmin gmax step (Z.of_nat n) = Ok (sizes, p, k) ->
  exists levels, calc_levels (ply_order sym n) sizes = Ok levels /\ map zlen levels = sizes /\ zlen levels = k /\
    Permutation (concat levels) (seq 0 (if sym then (n + 1) / 2 else n)).
Proof.
  intros sym gmin gmax step n sizes p k gm Hm Hg E.
  destruct (Classical_div sym {| g_min := gmin; g_max := gm |} (Z.of_nat n) Hg) as [Hex|N].
  2: { exfalso. destruct (C71_no_division sym gmin gmax step (Z.of_nat n)) as [e Ee]; [|congruence].
       intros gm' Hm'. assert (gm' = gm) by congruence. subst. split; auto. }
  destruct (C71_division_partial sym gmin gmax step (Z.of_nat n) gm Hm Hg ltac:(lia) Hex) as [sz [x [q [E' [B [Bx [Su _]]]]]]].
  rewrite E in E'. injection E' as -> _ ->.
  set (middle := if sym then Z.of_nat n mod 2 else 0) in *.
  assert (Hmid : 0 <= middle) by (unfold middle; destruct sym; [apply Z.mod_pos_bound; lia|lia]).
  assert (Lo : zlen (ply_order sym n) = sumZ (sz ++ [x])).
  { rewrite sumZ_app, sumZ_cons. cbn [sumZ fold_right]. change (fold_right Z.add 0 sz) with (sumZ sz).
    replace (sumZ sz + (x + 0)) with (sumZ sz + x) by lia. rewrite Su. unfold zlen, middle. destruct sym.
    - unfold ply_order. rewrite seq_length. unfold n_half.
      rewrite Nat2Z.inj_add. f_equal.
      + change 2 with (Z.of_nat 2). rewrite <- Nat2Z.inj_div; auto.
      + change 2 with (Z.of_nat 2). rewrite <- Nat2Z.inj_mod; auto.
    - rewrite (Permutation_length (ply_order_perm n)), seq_length. lia. }
  destruct (C72_levels (ply_order sym n) (sz ++ [x])) as [C _].
  { intros y Hy. apply in_app_or in Hy as [Hy|[<-|[]]]; [apply B in Hy; lia|lia]. }
  destruct (C ltac:(lia)) as [levels [E1 [E2 E3]]]. exists levels. split; auto. split; auto. split.
  - apply (f_equal zlen) in E2. unfold zlen in *. rewrite map_length, app_length in E2. cbn [length] in E2. lia.
  - rewrite E3. destruct sym; [|apply ply_order_perm]. unfold ply_order.
    replace (n_half n) with ((n + 1) / 2)%nat; auto. unfold n_half.
    pose proof (Nat.div_mod n 2 ltac:(lia)); pose proof (Nat.mod_upper_bound n 2 ltac:(lia)).
    pose proof (Nat.div_mod (n + 1) 2 ltac:(lia)); pose proof (Nat.mod_upper_bound (n + 1) 2 ltac:(lia)). lia.
Qed.
Print Assumptions C72_levels_of_division.

Example C72_example :
  calc_levels (ply_order false 7) [3; 4] = Ok [[0; 6; 1]; [5; 2; 4; 3]]%nat /\
  calc_levels (ply_order true 7) [2; 2] = Ok [[0; 1]; [2; 3]]%nat /\
  divide_laminate true 1 [2] 0 7 = Ok ([1; 3], [0; 1], 2).
Proof. vm_compute; auto. Qed.

(* ------------------------------------------------------------------ *)
(** ** C73 *)

(** twice the area (k = 0), first (k = 1) and second (k = 2) moment of area of the part of the
    thickness between the mid-plane and x, counted with the sign of x *)
Definition mass (k : nat) (x : Q) : Q := match k with O => x | 1%nat => (x * Qabs x)%Q | _ => (x * x * x)%Q end.

(** the share of ply i in the laminate, or of the part of ply i below the mid-plane in the lower
    half of a symmetric laminate; the laminate lies between -1 and 1 *)
Definition ply_share (sym : bool) (k n i : nat) : Q :=
  if sym then (mass k (Qmin (interface n (S i)) 0) - mass k (interface n i))%Q
  else ((mass k (interface n (S i)) - mass k (interface n i)) / (2 # 1))%Q.

Lemma mass_ext k x y : (x == y)%Q -> (mass k x == mass k y)%Q.
Proof. intros E. unfold mass. destruct k as [|[|k]]; rewrite ?E; reflexivity. Qed.

Lemma sumq_cons x l : sumQ (x :: l) = (x + sumQ l)%Q.
Proof. reflexivity. Qed.

Lemma column_add k a b : (column k (mom_add a b) == column k a + column k b)%Q.
Proof. destruct k as [|[|k]]; cbn; reflexivity. Qed.

Definition fold_moms (acc : mom) (l : list mom) : mom := fold_left (fun a m => mom_add a (mom_abs m)) l acc.

Lemma column_fold k : forall l acc, (column k (fold_moms acc l) == column k acc + sumQ (map (fun m => column k (mom_abs m)) l))%Q.
Proof.
  induction l as [|m l IH]; intros acc; cbn [fold_moms fold_left map].
  - cbn. ring.
  - fold (fold_moms (mom_add acc (mom_abs m)) l). rewrite IH, column_add, sumq_cons. ring.
Qed.

Lemma column_0 k : (column k mom0 == 0)%Q.
Proof. destruct k as [|[|k]]; reflexivity. Qed.

Lemma cummul_length : forall ms acc, length (cummul ms acc) = length acc.
Proof.
  induction ms as [|m ms IH]; intros [|a acc]; cbn [cummul map length]; auto.
  rewrite IH, map_length. reflexivity.
Qed.

Lemma cummul_nth k : forall ms acc j, (j < length acc)%nat ->
  (column k (nth j (cummul ms acc) mom0) == column k (nth j acc mom0) + sumQ (map (fun m => column k (mom_abs m)) (firstn (S j) ms)))%Q.
Proof.
  induction ms as [|m ms IH]; intros acc j H.
  - destruct acc; cbn; ring.
  - destruct acc as [|a acc]; [cbn in H; lia|]. cbn [cummul map]. destruct j as [|j].
    + cbn [nth firstn]. rewrite column_add. cbn [map]. rewrite sumq_cons. cbn. ring.
    + cbn [nth]. cbn [length] in H. rewrite IH by (rewrite map_length; lia).
      rewrite (nth_indep _ mom0 (mom_add mom0 (mom_abs m))) by (rewrite map_length; lia).
      rewrite (map_nth (fun a => mom_add a (mom_abs m))). rewrite column_add.
      replace (firstn (S (S j)) (m :: ms)) with (m :: firstn (S j) ms) by reflexivity. cbn [map]. rewrite sumq_cons. ring.
Qed.

(** one block of plies fills one group *)
Lemma group_block sizes ind s : get sizes ind = Ok s -> forall b ms counted acc out,
  b <> [] -> counted + zlen b = s -> 0 <= counted ->
  group_moments sizes (b ++ ms) counted ind acc out =
  group_moments sizes ms 0 (ind + 1) mom0 (upd (Z.to_nat ind) (fold_moms acc b) out).
Proof.
  intros G. induction b as [|m b IH]; intros ms counted acc out Ne E C; [congruence|].
  cbn [app group_moments]. rewrite G. cbn [bind]. unfold zlen in *. cbn [length] in E.
  destruct b as [|m' b].
  - cbn [length] in E. destruct (Z.eqb_spec (counted + 1) s); [|lia]. reflexivity.
  - destruct (Z.eqb_spec (counted + 1) s); [cbn [length] in E; lia|]. rewrite IH; auto; try congruence; cbn [length] in *; lia.
Qed.

Lemma group_part sizes ind s : get sizes ind = Ok s -> forall b counted acc out,
  counted + zlen b < s -> group_moments sizes b counted ind acc out = Ok (out, fold_moms acc b).
Proof.
  intros G. induction b as [|m b IH]; intros counted acc out E; [reflexivity|].
  cbn [group_moments]. rewrite G. cbn [bind]. unfold zlen in *. cbn [length] in E.
  destruct (Z.eqb_spec (counted + 1) s); [lia|]. rewrite IH by lia. reflexivity.
Qed.

Lemma upd_app {A} (a b : list A) x y : upd (length a) y (a ++ x :: b) = a ++ y :: b.
Proof. induction a as [|z a IH]; cbn; auto. rewrite IH; auto. Qed.

Lemma get_mid {A} (a : list A) x b : get (a ++ x :: b) (Z.of_nat (length a)) = Ok x.
Proof. rewrite (get_ok _ _ x) by (rewrite app_length; cbn; lia). rewrite app_nth2, Nat.sub_diag by lia. reflexivity. Qed.

Lemma group_blocks : forall bs pre outpre post zs ms, length outpre = length pre -> (forall b, In b bs -> b <> []) -> length zs = length bs ->
  group_moments (pre ++ map zlen bs ++ post) (concat bs ++ ms) 0 (Z.of_nat (length pre)) mom0 (outpre ++ zs ++ repeat mom0 (length post)) =
  group_moments (pre ++ map zlen bs ++ post) ms 0 (Z.of_nat (length pre + length bs)) mom0
    (outpre ++ map (fold_moms mom0) bs ++ repeat mom0 (length post)).
Proof.
  induction bs as [|b bs IH]; intros pre outpre post zs ms L Ne Lz.
  - destruct zs; [|cbn in Lz; lia]. cbn [concat app map length]. rewrite Nat.add_0_r. reflexivity.
  - destruct zs as [|z zs]; [cbn in Lz; lia|]. cbn [concat map app]. rewrite <- app_assoc.
    rewrite (group_block _ _ (zlen b)); [|apply get_mid|apply Ne; left; auto|lia|lia].
    rewrite Nat2Z.id, <- L, upd_app, L.
    replace (pre ++ zlen b :: map zlen bs ++ post) with ((pre ++ [zlen b]) ++ map zlen bs ++ post) by (rewrite <- app_assoc; reflexivity).
    replace (outpre ++ fold_moms mom0 b :: zs ++ repeat mom0 (length post)) with ((outpre ++ [fold_moms mom0 b]) ++ zs ++ repeat mom0 (length post)) by (rewrite <- app_assoc; reflexivity).
    replace (Z.of_nat (length pre) + 1) with (Z.of_nat (length (pre ++ [zlen b]))) by (rewrite app_length; cbn; lia).
    rewrite IH.
    + rewrite !app_length. cbn [length]. rewrite <- !app_assoc. cbn [app]. f_equal. lia.
    + rewrite !app_length, L. reflexivity.
    + intros; apply Ne; right; auto.
    + cbn in Lz; lia.
Qed.

Lemma mass1_neg x : (x <= 0)%Q -> (x * Qabs x == - (x * x))%Q.
Proof. intros H. rewrite Qabs_neg by auto. ring. Qed.

Lemma pos_top_min n i : (1 <= n)%nat -> (i < n_half n)%nat -> (pos_top_sym n i == Qmin (interface n (S i)) 0)%Q.
Proof.
  intros Hn Hi. destruct (half_pos n i Hn Hi) as [_ B]. unfold pos_top_sym in *.
  destruct (Nat.odd n && (S i =? n_half n)%nat)%bool eqn:E.
  - apply andb_prop in E as [O E]. apply Nat.eqb_eq in E.
    destruct (n_half_odd n O) as [E1 E2].
    pose proof (pos_mirror n (S i) Hn ltac:(lia)) as M.
    pose proof (pos_mono n (n - S i) (S i) Hn ltac:(lia)) as P.
    rewrite Q.min_r; [reflexivity|]. rewrite interface_pos by auto. lra.
  - rewrite Q.min_l; rewrite interface_pos by auto; [reflexivity|exact B].
Qed.

Lemma share_sym k n i : (1 <= n)%nat -> (i < n_half n)%nat ->
  (column k (mom_abs (row_sym n i)) == ply_share true k n i)%Q.
Proof.
  intros Hn Hi. destruct (half_pos n i Hn Hi) as [A B]. unfold ply_share.
  rewrite <- (mass_ext k _ _ (pos_top_min n i Hn Hi)), (mass_ext k _ _ (interface_pos n i Hn)).
  set (t := pos_top_sym n i) in *. set (b := pos n i) in *.
  destruct k as [|[|k]]; cbn [column mom_abs row_sym m_area m_first m_second mass]; fold t b.
  - rewrite Qabs_pos by lra. reflexivity.
  - rewrite !mass1_neg by lra. rewrite Qabs_neg; unfold sq; [ring|nra].
  - pose proof (cube_le b t A). rewrite Qabs_pos by lra. unfold cube. ring.
Qed.

Lemma ssq_mass x : (ssq x == x * Qabs x)%Q.
Proof.
  unfold ssq, sq. destruct (Qle_bool_spec 0 x) as [H|H].
  - rewrite Qabs_pos by auto. ring.
  - rewrite Qabs_neg by lra. ring.
Qed.

Lemma share_plus k n i : (1 <= n)%nat -> (column k (mom_plus_asym n i) == ply_share false k n i)%Q.
Proof.
  intros Hn. destruct (mom_plus_asym_eq n i Hn) as [E1 [E2 E3]]. unfold ply_share.
  rewrite (mass_ext k _ _ (interface_pos n i Hn)), (mass_ext k _ _ (interface_pos n (S i) Hn)).
  destruct k as [|[|k]]; cbn [column mass].
  - exact E1.
  - rewrite E2, !ssq_mass. reflexivity.
  - rewrite E3. unfold cube. reflexivity.
Qed.

Lemma Qabs_half x : (Qabs (x / (2 # 1)) == Qabs x / (2 # 1))%Q.
Proof. unfold Qdiv. rewrite Qabs_Qmult. reflexivity. Qed.

Lemma share_asym k n i : (1 <= n)%nat -> (S (2 * i) <> n)%nat ->
  (column k (mom_abs (mom_asym n i)) == ply_share false k n i)%Q.
Proof.
  intros Hn Hi. rewrite <- share_plus by auto. unfold mom_plus_asym, mom_asym.
  set (t := pos n (S i)). set (b := pos n i).
  assert (P : (0 <= t * b)%Q).
  { pose proof (pos_step n i Hn) as St. fold t b in St.
    destruct (Nat.le_gt_cases (2 * S i) n) as [L|L].
    - pose proof (pos_mirror n (S i) Hn ltac:(lia)) as M. pose proof (pos_mono n (S i) (n - S i) Hn ltac:(lia)) as Q.
      fold t in M, Q. assert (t <= 0)%Q by lra. nra.
    - destruct (Nat.le_gt_cases i n) as [Ln|Ln].
      + pose proof (pos_mirror n i Hn ltac:(lia)) as M. pose proof (pos_mono n (n - i) i Hn ltac:(lia)) as Q.
        fold b in M, Q. assert (0 <= b)%Q by lra. nra.
      + pose proof (pos_n n Hn). pose proof (pos_mono n n i Hn ltac:(lia)). fold b in H0. nra. }
  apply Qle_bool_iff in P. rewrite P.
  destruct k as [|[|k]]; cbn [column mom_abs m_area m_first m_second]; apply Qabs_half.
Qed.

Lemma share_last k n : (1 <= n)%nat ->
  (column k (last_moments n (nth (n - 1) (ply_order false n) 0%nat)) == ply_share false k n (nth (n - 1) (ply_order false n) 0%nat))%Q.
Proof.
  intros Hn. rewrite ply_order_nth by lia.
  set (i := if Nat.even (n - 1) then ((n - 1) / 2)%nat else (n - 1 - (n - 1) / 2)%nat).
  assert (Hi : (2 * i = n \/ S (2 * i) = n)%nat).
  { unfold i. pose proof (Nat.div_mod (n - 1) 2 ltac:(lia)) as D. destruct (Nat.even (n - 1)) eqn:E.
    - apply Nat.even_spec in E as [m E]. right. rewrite E. replace (2 * m)%nat with (m * 2)%nat by lia. rewrite Nat.div_mul by lia. lia.
    - assert (O : Nat.odd (n - 1) = true) by (rewrite <- Nat.negb_even, E; reflexivity).
      apply Nat.odd_spec in O as [m O]. left. rewrite O. replace (2 * m + 1)%nat with (1 + m * 2)%nat by lia.
      rewrite Nat.div_add by lia. change (1 / 2)%nat with 0%nat. lia. }
  clearbody i. pose proof (pos_step n i Hn) as St.
  pose proof (pos_mirror n i Hn ltac:(lia)) as M.
  destruct Hi as [Hi|Hi].
  - (* even ply count: the last ply lies on the mid-plane *)
    assert (B : (pos n i == 0)%Q) by (replace (n - i)%nat with i in M by lia; lra).
    unfold ply_share. rewrite (mass_ext k _ _ (interface_pos n i Hn)), (mass_ext k _ _ (interface_pos n (S i) Hn)), (mass_ext k _ _ B).
    set (t := pos n (S i)) in *. assert (T0 : (0 <= t)%Q) by lra. assert (T1 : (0 <= t * t)%Q) by nra. assert (T2 : (0 <= t * t * t)%Q) by nra.
    destruct k as [|[|k]]; cbn [column last_moments mass m_area m_first m_second]; fold t; unfold sq, cube; rewrite B.
    + rewrite (Qabs_pos t) by auto. change (Qabs 0) with 0%Q. field.
    + rewrite (Qabs_pos t), (Qabs_pos (t * t)) by auto. change (Qabs (0 * 0)) with 0%Q. field.
    + rewrite (Qabs_pos (t * t * t)) by auto. change (Qabs (0 * 0 * 0)) with 0%Q. field.
  - rewrite <- share_plus by auto. unfold mom_plus_asym.
    assert (T : (pos n (S i) == - pos n i)%Q) by (replace (n - i)%nat with (S i) in M by lia; exact M).
    destruct (Qle_bool 0 (pos n (S i) * pos n i)) eqn:P.
    + apply Qle_bool_iff in P. exfalso. rewrite T in *. nra.
    + reflexivity.
Qed.

Lemma sumQ_map_eq {A} (f g : A -> Q) l : (forall x, In x l -> f x == g x)%Q -> (sumQ (map f l) == sumQ (map g l))%Q.
Proof.
  induction l as [|x l IH]; intros H; [reflexivity|]. cbn [map]. rewrite !sumq_cons, (H x) by (left; auto).
  rewrite IH by (intros; apply H; right; auto). reflexivity.
Qed.

Lemma share_nonneg sym k n i : (1 <= n)%nat -> In i (ply_order sym n) -> (0 <= ply_share sym k n i)%Q.
Proof.
  intros Hn Hi. destruct sym.
  - unfold ply_order in Hi. apply in_seq in Hi. rewrite <- share_sym by lia.
    destruct k as [|[|k]]; cbn [column mom_abs m_area m_first m_second]; apply Qabs_nonneg.
  - rewrite <- share_plus by auto. destruct (C21_positive_moments false n Hn) as [_ [P _]].
    destruct (P (mom_plus_asym n i)) as [P1 [P2 P3]]; [unfold mom_areas_plus; apply in_map; auto|].
    destruct k as [|[|k]]; cbn [column]; auto.
Qed.

Lemma shares_total sym k n : (1 <= n)%nat -> (sumQ (map (ply_share sym k n) (ply_order sym n)) == 1)%Q.
Proof.
  intros Hn. destruct sym.
  - unfold ply_order. rewrite sumQ_map_seq.
    rewrite (Qsum_ext _ _ (fun i => mass k (pos_top_sym n i) - mass k (pos n i))%Q).
    + rewrite (sym_tele (mass k)); auto; [|apply mass_ext|]; destruct k as [|[|k]]; reflexivity.
    + intros i Hi. cbn [Nat.add]. unfold ply_share. rewrite (mass_ext k _ _ (pos_top_min n i Hn Hi)), (mass_ext k _ _ (interface_pos n i Hn)). reflexivity.
  - rewrite (sumQ_map_eq _ (fun i => column k (mom_plus_asym n i))) by (intros; symmetry; apply share_plus; auto).
    rewrite <- (map_map (mom_plus_asym n) (column k)).
    destruct (C21_positive_moments false n Hn) as [_ [_ [S1 [S2 S3]]]]. unfold mom_areas_plus in *.
    destruct k as [|[|k]]; auto.
Qed.

Lemma concat_last {A} (ls : list (list A)) l : concat (ls ++ [l]) = concat ls ++ l.
Proof. rewrite concat_app. cbn. rewrite app_nil_r. reflexivity. Qed.

Lemma firstn_map' {A B} (f : A -> B) k l : firstn k (map f l) = map f (firstn k l).
Proof. revert l; induction k as [|k IH]; intros [|x l]; cbn; auto. rewrite IH; auto. Qed.

Lemma In_firstn_in {A} (x : A) k l : In x (firstn k l) -> In x l.
Proof. intros H. rewrite <- (firstn_skipn k l). apply in_or_app; auto. Qed.

Lemma repeat_snoc {A} (x : A) k : repeat x (S k) = repeat x k ++ [x].
Proof. induction k as [|k IH]; cbn; auto. rewrite <- IH. reflexivity. Qed.

(** the signed moments: x, x^2, x^3 *)
Definition power (k : nat) (x : Q) : Q := match k with O => x | 1%nat => (x * x)%Q | _ => (x * x * x)%Q end.

Lemma power_ext k x y : (x == y)%Q -> (power k x == power k y)%Q.
Proof. intros E. unfold power. destruct k as [|[|k]]; rewrite ?E; reflexivity. Qed.

(** For groups that together have as many plies as are to be determined: the moments of the ply
    determined as number j are those of this ply, the cumulated moments after ply j are the total
    share of the plies determined so far, the moments of a group are the total share of the plies
    of this group *)
Theorem C73_moments : forall (sym : bool) n sizes,
  (1 <= n)%nat -> (forall x, In x sizes -> 1 <= x) -> sumZ sizes = zlen (ply_order sym n) ->
  exists levels rows cum grp,
    calc_levels (ply_order sym n) sizes = Ok levels /\ calc_mom_of_areas sym n sizes = Ok (rows, cum, grp) /\
    length rows = length (ply_order sym n) /\ length cum = length (ply_order sym n) /\ length grp = length sizes /\
    forall k, (k < 3)%nat ->
      (forall j, (j < length rows)%nat ->
         let i := nth j (ply_order sym n) 0%nat in
         column k (nth j rows mom0) ==
         if sym then power k (Qmin (interface n (S i)) 0) - power k (interface n i)
         else (power k (interface n (S i)) - power k (interface n i)) / (2 # 1))%Q /\
      (forall j, (j < length rows)%nat ->
         column k (nth j cum mom0) == sumQ (map (ply_share sym k n) (firstn (S j) (ply_order sym n))))%Q /\
      (forall g, (g < length sizes)%nat ->
         column k (nth g grp mom0) == sumQ (map (ply_share sym k n) (nth g levels [])))%Q.
Proof.
  intros sym n sizes Hn Hs Su.
  assert (Lpos : (1 <= length (ply_order sym n))%nat).
  { destruct sym; unfold ply_order.
    - rewrite seq_length. pose proof (n_half_spec n); lia.
    - pose proof (Permutation_length (ply_order_perm n)) as A. unfold ply_order in A. rewrite A, seq_length. lia. }
  destruct (C72_levels (ply_order sym n) sizes) as [C _]; [intros x Hx; apply Hs in Hx; lia|].
  destruct (C Su) as [levels [E1 [E2 E3]]]. clear C.
  assert (Ne : forall b, In b levels -> b <> []).
  { intros b Hb ->. assert (I : In (zlen (@nil nat)) sizes) by (rewrite <- E2; apply in_map; auto). apply Hs in I. cbn in I. lia. }
  exists levels, (ply_moments sym n).
  assert (Lr : length (ply_moments sym n) = length (ply_order sym n)).
  { unfold ply_moments, ply_order. destruct sym; rewrite map_length; reflexivity. }
  assert (Rows : forall k j, (j < length (ply_moments sym n))%nat -> let i := nth j (ply_order sym n) 0%nat in
         (column k (nth j (ply_moments sym n) mom0) ==
         if sym then power k (Qmin (interface n (S i)) 0) - power k (interface n i)
         else (power k (interface n (S i)) - power k (interface n i)) / (2 # 1))%Q).
  { intros k j Hj. rewrite Lr in Hj. cbv zeta. destruct sym; unfold ply_moments.
    - unfold ply_order in *. rewrite seq_length in Hj. rewrite seq_nth by auto. cbn [Nat.add].
      rewrite (nth_indep _ mom0 (row_sym n 0)) by (rewrite map_length, seq_length; auto). rewrite map_nth, seq_nth by auto. cbn [Nat.add].
      rewrite <- (power_ext k _ _ (pos_top_min n j Hn Hj)), (power_ext k _ _ (interface_pos n j Hn)).
      destruct k as [|[|k]]; reflexivity.
    - rewrite (nth_indep _ mom0 (mom_asym n 0)) by (rewrite map_length; auto). rewrite map_nth.
      set (i := nth j (ply_order false n) 0%nat). rewrite (power_ext k _ _ (interface_pos n i Hn)), (power_ext k _ _ (interface_pos n (S i) Hn)).
      destruct k as [|[|k]]; reflexivity. }
  unfold calc_mom_of_areas. destruct sym.
  - (* symmetric *)
    set (rows := ply_moments true n) in *.
    assert (Er : rows = concat (map (map (row_sym n)) levels)).
    { unfold rows, ply_moments. rewrite <- concat_map, E3. reflexivity. }
    pose proof (group_blocks (map (map (row_sym n)) levels) [] [] [] (repeat mom0 (length sizes)) []) as G.
    cbn [app length repeat] in G. rewrite !app_nil_r in G.
    assert (Ez : map zlen (map (map (row_sym n)) levels) = sizes).
    { rewrite map_map, <- E2. apply map_ext; intros b. unfold zlen. rewrite map_length. reflexivity. }
    rewrite Ez, <- Er in G. cbn [Z.of_nat Nat.add] in G. rewrite map_length in G.
    assert (Ll : length levels = length sizes) by (rewrite <- E2, map_length; reflexivity).
    rewrite G; [|reflexivity| |rewrite repeat_length; lia].
    2: { intros b Hb. apply in_map_iff in Hb as [b0 [<- Hb]]. apply Ne in Hb. destruct b0; cbn; congruence. }
    cbn [group_moments bind fst].
    eexists _, _. split; [exact E1|]. split; [reflexivity|]. split; [exact Lr|].
    split; [rewrite cummul_length, repeat_length; exact Lr|]. split; [rewrite !map_length; auto|].
    intros k Hk. split; [apply Rows|]. split.
    + intros j Hj. rewrite cummul_nth by (rewrite repeat_length; auto).
      rewrite nth_repeat. rewrite column_0.
      unfold rows, ply_moments. rewrite firstn_map', map_map. rewrite Qplus_0_l.
      apply sumQ_map_eq. intros i Hi. apply share_sym; auto. unfold ply_order in Hi.
      apply (In_firstn_in) in Hi. apply in_seq in Hi. lia.
    + intros g Hg. rewrite (nth_indep _ mom0 (fold_moms mom0 (map (row_sym n) []))) by (rewrite !map_length; lia).
      rewrite map_map. rewrite (map_nth (fun b => fold_moms mom0 (map (row_sym n) b)) levels []).
      rewrite column_fold, column_0, Qplus_0_l, map_map. apply sumQ_map_eq. intros i Hi. apply share_sym; auto.
      assert (In i (ply_order true n)).
      { rewrite <- E3. apply in_concat. exists (nth g levels []). split; auto. apply nth_In. lia. }
      unfold ply_order in H. apply in_seq in H. lia.
  - (* asymmetric *)
    assert (Lo : length (ply_order false n) = n) by (rewrite (Permutation_length (ply_order_perm n)), seq_length; reflexivity).
    set (i := nth (n - 1) (ply_order false n) 0%nat).
    assert (Eo : ply_order false n = firstn (n - 1) (ply_order false n) ++ [i]).
    { rewrite <- (firstn_skipn (n - 1) (ply_order false n)) at 1. f_equal.
      assert (Ls : length (skipn (n - 1) (ply_order false n)) = 1%nat) by (rewrite skipn_length; lia).
      unfold i. rewrite <- (firstn_skipn (n - 1) (ply_order false n)) at 2. rewrite app_nth2; rewrite firstn_length, Lo; [|lia].
      replace (n - 1 - Nat.min (n - 1) n)%nat with 0%nat by lia.
      destruct (skipn (n - 1) (ply_order false n)) as [|a [|b t]]; cbn in Ls; try lia. reflexivity. }
    destruct (exists_last (l := levels)) as [ls [l El]]; [intros ->; rewrite <- E3 in Lpos; cbn [concat length] in Lpos; lia|].
    destruct (exists_last (l := l)) as [l' [i' El']]; [apply Ne; rewrite El; apply in_or_app; right; left; auto|].
    assert (X : concat ls ++ l' = firstn (n - 1) (ply_order false n) /\ i' = i).
    { rewrite El, El', concat_last, app_assoc in E3. rewrite Eo in E3. apply app_inj_tail in E3. exact E3. }
    destruct X as [X1 ->]. subst l levels.
    set (f := mom_asym n) in *. set (rows := ply_moments false n) in *.
    assert (Ef : firstn (n - 1) rows = concat (map (map f) ls) ++ map f l').
    { unfold rows, ply_moments. rewrite firstn_map', <- X1, map_app, concat_map. reflexivity. }
    assert (Sz : sizes = map zlen (map (map f) ls) ++ [zlen l' + 1]).
    { rewrite <- E2, map_app. f_equal; [rewrite map_map; apply map_ext; intros b; unfold zlen; rewrite map_length; reflexivity|].
      cbn [map]. rewrite zlen_app. reflexivity. }
    assert (Hi1 : forall x, In x (firstn (n - 1) (ply_order false n)) -> S (2 * x) <> n).
    { intros x Hx. apply (In_nth _ _ 0%nat) in Hx as [j [Hj Ej]]. rewrite firstn_length, Lo in Hj. rewrite nth_firstn_lt in Ej by lia.
      rewrite ply_order_nth in Ej by lia. pose proof (Nat.div_mod j 2 ltac:(lia)) as D. pose proof (Nat.mod_upper_bound j 2 ltac:(lia)).
      destruct (Nat.even j) eqn:Ev; [apply Nat.even_spec in Ev as [u Ev]; subst j; rewrite Nat.mul_comm, Nat.div_mul in Ej by lia; lia|].
      assert (Od : Nat.odd j = true) by (rewrite <- Nat.negb_even, Ev; reflexivity). apply Nat.odd_spec in Od as [u Od].
      subst j. replace (2 * u + 1)%nat with (1 + u * 2)%nat in Ej by lia. rewrite Nat.div_add in Ej by lia. change (1 / 2)%nat with 0%nat in Ej. lia. }
    rewrite Ef.
    pose proof (group_blocks (map (map f) ls) [] [] [zlen l' + 1] (repeat mom0 (length ls)) (map f l')) as G.
    cbn [app length] in G. rewrite <- Sz in G.
    assert (Zr : repeat mom0 (length sizes) = repeat mom0 (length ls) ++ repeat mom0 1).
    { rewrite Sz, app_length, !map_length. cbn [length]. rewrite Nat.add_1_r. apply repeat_snoc. }
    rewrite Zr. cbn [repeat] in G |- *. cbn [Z.of_nat] in G. rewrite G; [|reflexivity| |rewrite repeat_length, map_length; reflexivity].
    2: { intros b Hb. apply in_map_iff in Hb as [b0 [<- Hb]]. assert (Hb' : In b0 (ls ++ [l' ++ [i]])) by (apply in_or_app; auto). apply Ne in Hb'. destruct b0; cbn; congruence. }
    rewrite (group_part _ _ (zlen l' + 1)).
    2: { cbn [Nat.add]. rewrite Sz, <- (map_length zlen). apply get_mid. }
    2: { unfold zlen. rewrite map_length. lia. }
    cbn [bind fst snd].
    set (cum0 := cummul (concat (map (map f) ls) ++ map f l') (repeat mom0 (length rows))).
    assert (Lc0 : length cum0 = n) by (unfold cum0; rewrite cummul_length, repeat_length; rewrite Lr; exact Lo).
    unfold add_last at 1. destruct cum0 as [|c0 cum1] eqn:Ec; [cbn in Lc0; lia|]. rewrite <- Ec in *. cbn [bind].
    unfold add_last. destruct (map (fold_moms mom0) (map (map f) ls) ++ [mom0]) as [|g0 grp1] eqn:Eg; [apply app_eq_nil in Eg as [_ Eg]; discriminate|].
    rewrite <- Eg in *. clear Eg. cbn [bind].
    eexists _, _. split; [exact E1|]. split; [reflexivity|]. split; [exact Lr|].
    split; [rewrite upd_length; lia|]. split; [rewrite upd_length, app_length, Sz, app_length, !map_length; reflexivity|].
    intros k Hk. split; [apply Rows|]. split.
    + intros j Hj. rewrite Lr, Lo in Hj. rewrite Lc0, nth_upd, Lc0.
      assert (Cj : forall j, (j < n)%nat -> (column k (nth j cum0 mom0) == sumQ (map (ply_share false k n) (firstn (S j) (firstn (n - 1) (ply_order false n)))))%Q).
      { intros j' Hj'. unfold cum0. rewrite cummul_nth by (rewrite repeat_length, Lr, Lo; auto). rewrite nth_repeat, column_0, Qplus_0_l.
        rewrite <- Ef. unfold rows, ply_moments. fold f. rewrite !firstn_map', map_map. apply sumQ_map_eq. intros x Hx. apply In_firstn_in in Hx.
        apply share_asym; auto. }
      destruct (Nat.eqb_spec (n - 1) j) as [Ej|Ej].
      * destruct (Nat.ltb_spec (n - 1) n); [|lia]. cbn [andb]. rewrite column_add, Cj by lia. pose proof (share_last k n Hn) as SL. fold i in SL. rewrite SL.
        rewrite (firstn_all2 (n := S (n - 1))) by (rewrite firstn_length; lia). subst j.
        rewrite (firstn_all2 (n := S (n - 1)) (ply_order false n)) by lia.
        rewrite Eo at 2. rewrite map_app, sumQ_app. cbn [map]. rewrite sumq_cons. cbn [sumQ fold_right]. ring.
      * cbn [andb]. rewrite Cj by lia. rewrite firstn_firstn. replace (Nat.min (S j) (n - 1)) with (S j) by lia. reflexivity.
    + intros g Hg. rewrite nth_upd. rewrite app_length, !map_length. cbn [length].
      replace (length ls + 1 - 1)%nat with (length ls) by lia.
      assert (Lz : length sizes = S (length ls)) by (rewrite Sz, app_length, !map_length; cbn; lia).
      destruct (Nat.eqb_spec (length ls) g) as [Eg|Eg].
      * subst g. destruct (Nat.ltb_spec (length ls) (length ls + 1)); [|lia]. cbn [andb].
        pose proof (share_last k n Hn) as SL. fold i in SL. rewrite column_add, column_add, column_fold, column_0, SL.
        rewrite app_nth2 by (rewrite !map_length; lia). rewrite !map_length, Nat.sub_diag. cbn [nth]. rewrite column_0.
        rewrite app_nth2 by lia. rewrite Nat.sub_diag. cbn [nth]. rewrite map_app, sumQ_app. cbn [map]. rewrite sumq_cons. cbn [sumQ fold_right].
        rewrite map_map. rewrite (sumQ_map_eq (fun x => column k (mom_abs (f x))) (ply_share false k n)); [ring|].
        intros x Hx. apply share_asym; auto. apply Hi1. rewrite <- X1. apply in_or_app; auto.
      * cbn [andb]. rewrite !app_nth1 by (rewrite ?map_length; lia).
        rewrite (nth_indep _ mom0 (fold_moms mom0 (map f []))) by (rewrite !map_length; lia).
        rewrite map_map. rewrite (map_nth (fun b => fold_moms mom0 (map f b)) ls []).
        rewrite column_fold, column_0, Qplus_0_l, map_map. apply sumQ_map_eq. intros x Hx. apply share_asym; auto.
        apply Hi1. rewrite <- X1. apply in_or_app; left. apply in_concat. exists (nth g ls []). split; auto. apply nth_In. lia.
Qed.
Print Assumptions C73_moments.

(** the shares are non-negative and add up to one, so the cumulated moments never decrease and
    end at one, and the moments of the groups add up to one *)
Theorem C73_normalised : forall (sym : bool) n sizes rows cum grp,
  (1 <= n)%nat -> (forall x, In x sizes -> 1 <= x) -> sumZ sizes = zlen (ply_order sym n) ->
  calc_mom_of_areas sym n sizes = Ok (rows, cum, grp) ->
  forall k, (k < 3)%nat ->
    (forall j, (j < length cum)%nat -> 0 < column k (nth j cum mom0) <= 1)%Q /\
    (forall i j, (i <= j < length cum)%nat -> column k (nth i cum mom0) <= column k (nth j cum mom0))%Q /\
    (column k (last cum mom0) == 1)%Q /\
    (forall g, (g < length grp)%nat -> 0 <= column k (nth g grp mom0))%Q /\
    (sumQ (map (column k) grp) == 1)%Q.
Proof.
  intros sym n sizes rows cum grp Hn Hs Su E k Hk.
  destruct (C73_moments sym n sizes Hn Hs Su) as [levels [rows' [cum' [grp' [El [E' [L1 [L2 [L3 H]]]]]]]]].
  rewrite E in E'. injection E' as <- <- <-. destruct (H k Hk) as [_ [H2 H3]]. clear H.
  set (po := ply_order sym n) in *. set (ws := map (ply_share sym k n) po).
  assert (Pw : forall x, In x ws -> (0 <= x)%Q).
  { intros x Hx. unfold ws in Hx. apply in_map_iff in Hx as [i [<- Hi]]. apply share_nonneg; auto. }
  assert (Sw : (sumQ ws == 1)%Q) by (apply shares_total; auto).
  assert (Lw : length ws = length po) by (unfold ws; apply map_length).
  assert (H2' : forall j, (j < length cum)%nat -> (column k (nth j cum mom0) == sumQ (firstn (S j) ws))%Q).
  { intros j Hj. rewrite H2 by lia. unfold ws. rewrite firstn_map'. reflexivity. }
  assert (Lpos : (1 <= length po)%nat).
  { unfold po. destruct sym; unfold ply_order.
    - rewrite seq_length. pose proof (n_half_spec n); lia.
    - pose proof (Permutation_length (ply_order_perm n)) as A. unfold ply_order in A. rewrite A, seq_length. lia. }
  assert (First : (0 < sumQ (firstn 1 ws))%Q).
  { unfold ws, po. destruct sym.
    - unfold ply_order in *. fold po in Lpos. unfold po in Lpos. rewrite seq_length in Lpos.
      destruct (n_half n) as [|m] eqn:Eh; [lia|]. cbn [seq map firstn]. rewrite sumq_cons. cbn [sumQ fold_right].
      rewrite <- share_sym by lia. destruct (half_pos n 0 Hn ltac:(lia)) as [A B]. pose proof (pos_0 n) as P0.
      assert (T : (pos n 0 < pos_top_sym n 0)%Q).
      { unfold pos_top_sym. destruct (_ && _)%bool; [lra|]. apply pos_step; auto. }
      set (t := pos_top_sym n 0) in *.
      destruct k as [|[|k]]; cbn [column mom_abs row_sym m_area m_first m_second]; fold t.
      + rewrite Qabs_pos by lra. lra.
      + unfold sq. rewrite P0 in *. rewrite Qabs_neg; nra.
      + unfold cube. rewrite P0 in *. assert (0 <= t * t)%Q by nra. rewrite Qabs_pos; nra.
    - assert (E0 : firstn 1 (map (ply_share false k n) (ply_order false n)) = [ply_share false k n 0]).
      { rewrite firstn_map'. rewrite ply_order_asym. pose proof (n_half_spec n). destruct (n_half n) as [|m]; [lia|]. reflexivity. }
      rewrite E0. rewrite sumq_cons. cbn [sumQ fold_right]. unfold ply_share.
      rewrite (mass_ext k _ _ (interface_pos n 0 Hn)), (mass_ext k _ _ (pos_0 n)), (mass_ext k _ _ (interface_pos n 1 Hn)).
      pose proof (pos_step n 0 Hn) as St. rewrite (pos_0 n) in St. set (t := pos n 1) in *.
      assert (0 < mass k t - mass k (-1))%Q.
      { destruct k as [|[|k]]; cbn [mass].
        - lra.
        - change (-1 * Qabs (-1))%Q with (-1 # 1)%Q. destruct (Qlt_le_dec t 0).
          + rewrite Qabs_neg by lra. nra.
          + rewrite Qabs_pos by lra. nra.
        - assert (0 < (t - -1) * (t * t + t * -1 + -1 * -1))%Q; [|lra].
          assert (0 < t * t + t * -1 + -1 * -1)%Q by nra. nra. }
      rewrite Qplus_0_r. apply Qlt_shift_div_l; lra. }
  split; [|split; [|split; [|split]]].
  - intros j Hj. rewrite H2' by auto. split.
    + eapply Qlt_le_trans; [apply First|]. apply sumQ_firstn_mono; auto. lia.
    + rewrite <- Sw. rewrite <- (firstn_all ws) at 2. apply sumQ_firstn_mono; auto. lia.
  - intros i j Hij. rewrite !H2' by lia. apply sumQ_firstn_mono; auto. lia.
  - destruct (exists_last (l := cum)) as [c' [z Ez]]; [intros ->; cbn in L2; lia|].
    assert (Nl : nth (length cum - 1) cum mom0 = last cum mom0).
    { rewrite Ez, last_last, app_length. cbn [length]. rewrite app_nth2 by lia. replace (length c' + 1 - 1 - length c')%nat with 0%nat by lia. reflexivity. }
    rewrite <- Nl, H2' by lia. replace (S (length cum - 1)) with (length ws) by lia. rewrite firstn_all. exact Sw.
  - intros g Hg. rewrite H3 by lia.
    assert (A : forall l, incl l po -> (0 <= sumQ (map (ply_share sym k n) l))%Q).
    { induction l as [|x l IH]; intros I; [cbn; lra|]. cbn [map]. rewrite sumq_cons.
      pose proof (share_nonneg sym k n x Hn (I x (or_introl eq_refl))). specialize (IH (fun y Hy => I y (or_intror Hy))). lra. }
    apply A. intros x Hx. destruct (C72_levels po sizes) as [C _]; [intros y Hy; apply Hs in Hy; lia|].
    destruct (C Su) as [lv [F1 [F2 F3]]]. fold po in El. rewrite El in F1. injection F1 as <-. rewrite <- F3. apply in_concat.
    exists (nth g levels []). split; auto. apply nth_In. apply (f_equal (@length _)) in F2. rewrite map_length in F2. lia.
  - destruct (C72_levels po sizes) as [C _]; [intros y Hy; apply Hs in Hy; lia|].
    destruct (C Su) as [lv [F1 [F2 F3]]]. fold po in El. rewrite El in F1. injection F1 as <-.
    assert (Ll : length levels = length sizes) by (rewrite <- F2, map_length; reflexivity).
    rewrite <- Sw. unfold ws. rewrite <- F3. clear -H3 L3 Ll.
    revert levels grp L3 Ll H3. induction sizes as [|s sizes IH]; intros [|l levels] [|g grp] L3 Ll H3; cbn in L3, Ll; try lia; [reflexivity|].
    cbn [map concat]. rewrite sumq_cons, map_app, sumQ_app. pose proof (H3 0%nat ltac:(cbn; lia)) as A. cbn [nth] in A. rewrite A.
    rewrite (IH levels grp) by (try lia; intros h Hh; apply (H3 (S h)); cbn; lia). reflexivity.
Qed.
Print Assumptions C73_normalised.

Example C73_example :
  sumZ [5; 6] = zlen (ply_order true 21) /\ sumZ [3; 4] = zlen (ply_order false 7) /\
  match calc_mom_of_areas false 3 [1; 2] with
  | Ok (_, cum, grp) => Forall2 Qeq (map m_area cum) [1 # 3; 2 # 3; 1]%Q /\ Forall2 Qeq (map m_second grp) [13 # 27; 14 # 27]%Q
  | Err _ => False
  end.
Proof. split; [reflexivity|]. split; [reflexivity|]. vm_compute. split; repeat (constructor; [reflexivity|]); constructor. Qed.

(* ------------------------------------------------------------------ *)
(** ** C74 *)

(** what ply i of the stack adds to lamination parameter c *)
Definition ply_part (cos_sin : Z -> nat -> Q) (s : list Z) (c i : nat) : Q :=
  let n := length s in
  let power (x : Q) := if (c <? 4)%nat then x else if (c <? 8)%nat then (x * x)%Q else (x * x * x)%Q in
  ((1 # 2) * ((power (interface n (S i)) - power (interface n i)) * cos_sin (nth i s 0%Z) (c mod 4)%nat))%Q.

Lemma sumQ_scale {A} c (f : A -> Q) l : (sumQ (map (fun x => c * f x) l) == c * sumQ (map f l))%Q.
Proof. induction l as [|x l IH]; cbn [map]; rewrite ?sumq_cons; [cbn; ring|]. rewrite IH. ring. Qed.

(** the plies together give the lamination parameters *)
Lemma ply_parts cs s c : (sumQ (map (ply_part cs s c) (seq 0 (length s))) == lamination_parameter cs s c)%Q.
Proof. unfold lamination_parameter, ply_part. apply sumQ_scale. Qed.

(** ply i of the lower half and its mirror image *)
Definition both_plies (n i : nat) : list nat := if (S (2 * i) =? n)%nat then [i] else [i; (n - 1 - i)%nat].

Lemma assumed_of_spec angles rows ss : (forall a, In a ss -> In a angles) -> forall levels acc,
  (forall l, In l levels -> (l < length ss)%nat /\ (l < length rows)%nat) ->
  exists r, assumed_of angles rows ss levels acc = Ok r /\
    forall c, (r c == acc c + sumQ (map (fun l => nth l rows (fun _ => lampam_zero) (nth l ss 0%Z) c) levels))%Q.
Proof.
  intros Ha. induction levels as [|l levels IH]; intros acc H; cbn [assumed_of].
  - exists acc. split; auto. intros c. cbn. ring.
  - destruct (H l (or_introl eq_refl)) as [L1 L2]. rewrite (get_ok ss l 0) by auto. cbn [bind].
    assert (M : memb (nth l ss 0) angles = true) by (apply memb_true, Ha, nth_In; auto). rewrite M. cbn [negb guard bind].
    rewrite (get_ok rows l (fun _ => lampam_zero)) by auto. cbn [bind].
    destruct (IH (lampam_add acc (nth l rows (fun _ => lampam_zero) (nth l ss 0))) (fun x Hx => H x (or_intror Hx))) as [r [E R]].
    exists r. split; auto. intros c. rewrite R. unfold lampam_add. cbn [map]. rewrite sumq_cons. ring.
Qed.

Lemma partial_rows cs n i : (i < n_half n)%nat ->
  nth i (partial_lampams true cs n) (fun _ => lampam_zero) = ply_lampam true cs (row_sym n i).
Proof.
  intros H. unfold partial_lampams, ply_moments.
  rewrite (nth_indep _ _ (ply_lampam true cs (row_sym n 0))) by (rewrite !map_length, seq_length; auto).
  rewrite map_nth, map_nth, seq_nth by auto. reflexivity.
Qed.

(** one entry of the table of the partial lamination parameters of a symmetric laminate is what
    the ply and its mirror image add *)
Lemma partial_sym cs ss i c : (1 <= length ss)%nat -> ss = rev ss -> (i < n_half (length ss))%nat ->
  (nth i (partial_lampams true cs (length ss)) (fun _ => lampam_zero) (nth i ss 0%Z) c ==
   sumQ (map (ply_part cs ss c) (both_plies (length ss) i)))%Q.
Proof.
  intros Hn Hs Hi. rewrite partial_rows by auto. set (n := length ss) in *.
  pose proof (n_half_spec n) as Hh.
  assert (Mir : nth (n - 1 - i) ss 0 = nth i ss 0).
  { rewrite Hs at 1. rewrite rev_nth by (fold n; lia). f_equal. fold n. lia. }
  set (co := cs (nth i ss 0) (c mod 4)%nat).
  assert (R : (ply_lampam true cs (row_sym n i) (nth i ss 0%Z) c ==
     (if ((4 <=? c) && (c <? 8))%nat then 0 else (pw c (pos_top_sym n i) - pw c (pos n i)) * co))%Q).
  { unfold ply_lampam, pw. fold co. destruct (Nat.ltb_spec c 4), (Nat.leb_spec 4 c), (Nat.ltb_spec c 8); try lia; cbn [andb];
      cbn [row_sym m_area m_second]; reflexivity. }
  rewrite R. clear R.
  assert (Part : forall j, nth j ss 0 = nth i ss 0 -> (ply_part cs ss c j == (1 # 2) * ((pw c (pos n (S j)) - pw c (pos n j)) * co))%Q).
  { intros j Ej. unfold ply_part. fold n. rewrite Ej. fold co.
    rewrite <- (pw_ext c _ _ (interface_pos n (S j) Hn)), <- (pw_ext c _ _ (interface_pos n j Hn)). unfold pw, sq, cube. reflexivity. }
  assert (Odd : forall x, (if ((4 <=? c) && (c <? 8))%nat then pw c (- x) == pw c x else pw c (- x) == - pw c x)%Q).
  { intros x. unfold pw, sq, cube. destruct (Nat.ltb_spec c 4), (Nat.leb_spec 4 c), (Nat.ltb_spec c 8); try lia; cbn [andb]; ring. }
  unfold both_plies. destruct (Nat.eqb_spec (S (2 * i)) n) as [Em|Em].
  - (* middle ply *)
    cbn [map]. rewrite sumq_cons. cbn [sumQ fold_right]. rewrite Part by auto.
    assert (Tp : pos_top_sym n i = 0%Q).
    { unfold pos_top_sym. assert (O : Nat.odd n = true) by (rewrite <- Em; apply Nat.odd_spec; exists i; lia).
      destruct (n_half_odd n O) as [E1 E2]. replace (S i =? n_half n)%nat with true by (symmetry; apply Nat.eqb_eq; lia). rewrite O. reflexivity. }
    rewrite Tp. assert (B : (pos n (S i) == - pos n i)%Q).
    { pose proof (pos_mirror n i Hn ltac:(lia)) as M. replace (n - i)%nat with (S i) in M by lia. exact M. }
    rewrite (pw_ext c _ _ B). specialize (Odd (pos n i)). assert (P0 : (pw c 0 == 0)%Q) by (unfold pw, sq, cube; destruct (c <? 4)%nat, (c <? 8)%nat; reflexivity).
    destruct ((4 <=? c) && (c <? 8))%nat; rewrite Odd; [ring|]. rewrite P0. ring.
  - cbn [map]. rewrite !sumq_cons. cbn [sumQ fold_right]. rewrite (Part i) by auto. rewrite (Part (n - 1 - i)%nat) by auto.
    replace (S (n - 1 - i)) with (n - i)%nat by lia. replace (n - 1 - i)%nat with (n - S i)%nat by lia.
    rewrite (pw_ext c _ _ (pos_mirror n i Hn ltac:(lia))), (pw_ext c _ _ (pos_mirror n (S i) Hn ltac:(lia))).
    assert (Tp : pos_top_sym n i = pos n (S i)).
    { unfold pos_top_sym. destruct (Nat.odd n) eqn:O; [|reflexivity]. destruct (n_half_odd n O) as [E1 E2].
      destruct (Nat.eqb_spec (S i) (n_half n)); [lia|]. reflexivity. }
    rewrite Tp. pose proof (Odd (pos n i)) as O1. pose proof (Odd (pos n (S i))) as O2.
    destruct ((4 <=? c) && (c <? 8))%nat; rewrite O1, O2; ring.
Qed.

Lemma both_plies_perm n : (1 <= n)%nat -> Permutation (flat_map (both_plies n) (seq 0 (n_half n))) (seq 0 n).
Proof.
  intros Hn. apply NoDup_Permutation.
  - assert (G : forall k, (k <= n_half n)%nat -> NoDup (flat_map (both_plies n) (seq 0 k))).
    { induction k as [|k IH]; intros Hk; [constructor|]. rewrite seq_S, flat_map_app. cbn [flat_map Nat.add]. rewrite app_nil_r.
      pose proof (n_half_spec n) as Hh.
      assert (Old : forall x, In x (flat_map (both_plies n) (seq 0 k)) -> (x < k \/ n - 1 - k < x)%nat).
      { intros x Hx. apply in_flat_map in Hx as [i [Hi Hx]]. apply in_seq in Hi. unfold both_plies in Hx.
        destruct (S (2 * i) =? n)%nat; cbn in Hx; lia. }
      apply Permutation_NoDup with (both_plies n k ++ flat_map (both_plies n) (seq 0 k)); [apply Permutation_app_comm|].
      unfold both_plies at 1. destruct (Nat.eqb_spec (S (2 * k)) n).
      - cbn [app]. constructor; [|apply IH; lia]. intros I. apply Old in I. lia.
      - cbn [app]. constructor; [|constructor; [|apply IH; lia]].
        + intros [I|I]; [lia|]. apply Old in I. lia.
        + intros I. apply Old in I. lia. }
    apply G. lia.
  - apply seq_NoDup.
  - intros x. rewrite in_flat_map, in_seq. pose proof (n_half_spec n) as Hh. split.
    + intros [i [Hi Hx]]. apply in_seq in Hi. unfold both_plies in Hx. destruct (Nat.eqb_spec (S (2 * i)) n); cbn in Hx; lia.
    + intros Hx. destruct (Nat.lt_ge_cases x (n_half n)) as [L|L].
      * exists x. rewrite in_seq. split; [lia|]. unfold both_plies. destruct (S (2 * x) =? n)%nat; left; auto.
      * exists (n - 1 - x)%nat. rewrite in_seq. split; [lia|]. unfold both_plies. destruct (Nat.eqb_spec (S (2 * (n - 1 - x))) n); [lia|].
        right; left. lia.
Qed.

Lemma sumQ_flat_map {A B} (f : B -> Q) (g : A -> list B) l : (sumQ (map f (flat_map g l)) == sumQ (map (fun x => sumQ (map f (g x))) l))%Q.
Proof. induction l as [|x l IH]; [reflexivity|]. cbn [flat_map map]. rewrite map_app, sumQ_app, IH, sumq_cons. reflexivity. Qed.

(** Symmetric laminates: after an outer step, the lamination parameters assumed for a group are
    what the plies of the group and their mirror images add in the best stack found, and all
    groups together give the lamination parameters of this stack *)
Theorem C74_assumed_symmetric_partial : forall angles cos_sin ss levels,
  (1 <= length ss)%nat -> ss = rev ss -> (forall a, In a ss -> In a angles) ->
  Permutation (concat levels) (ply_order true (length ss)) ->
  exists tab, lampam_assumed angles (partial_lampams true cos_sin (length ss)) ss levels = Ok tab /\ length tab = length levels /\
    forall c,
      (forall g, (g < length levels)%nat ->
         nth g tab lampam_zero c == sumQ (map (ply_part cos_sin ss c) (flat_map (both_plies (length ss)) (nth g levels []))))%Q /\
      (sumQ (map (fun t => t c) tab) == lamination_parameter cos_sin ss c)%Q.
Proof.
  intros angles cs ss levels Hn Hs Ha P. set (n := length ss) in *.
  assert (Il : forall ls l, In ls levels -> In l ls -> (l < n_half n)%nat).
  { intros ls l H1 H2. assert (I : In l (ply_order true n)) by (eapply Permutation_in; [exact P|]; apply in_concat; eauto).
    unfold ply_order in I. apply in_seq in I. lia. }
  assert (G : exists tab, lampam_assumed angles (partial_lampams true cs n) ss levels = Ok tab /\ length tab = length levels /\
    forall g c, (g < length levels)%nat -> (nth g tab lampam_zero c == sumQ (map (ply_part cs ss c) (flat_map (both_plies n) (nth g levels []))))%Q).
  { clear P. unfold lampam_assumed. induction levels as [|ls levels IH].
    - exists []. repeat split. intros g c Hg. cbn in Hg. lia.
    - destruct IH as [tab [E [L T]]]; [intros ls' l H1 H2; apply (Il ls'); auto; right; auto|].
      destruct (assumed_of_spec angles (partial_lampams true cs n) ss Ha ls lampam_zero) as [r [Er R]].
      { intros l Hl. pose proof (Il ls l (or_introl eq_refl) Hl). pose proof (n_half_spec n). unfold partial_lampams, ply_moments.
        rewrite !map_length, seq_length. fold n. lia. }
      exists (r :: tab). cbn [mapM]. rewrite Er. cbn [bind]. rewrite E. cbn [bind]. split; auto. split; [cbn; lia|].
      intros [|g] c Hg; cbn [nth].
      + rewrite R. unfold lampam_zero at 1. rewrite Qplus_0_l. rewrite sumQ_flat_map. apply sumQ_map_eq. intros l Hl.
        apply partial_sym; auto. apply (Il ls); auto. left; auto.
      + apply T. cbn in Hg. lia. }
  destruct G as [tab [E [L T]]]. exists tab. split; auto. split; auto. intros c. split; [intros g Hg; apply T; auto|].
  transitivity (sumQ (map (ply_part cs ss c) (flat_map (both_plies n) (concat levels)))).
  - clear E P Il. revert tab L T. induction levels as [|ls levels IH]; intros [|t tab] L T; cbn in L; try lia; [reflexivity|].
    cbn [map concat]. rewrite sumq_cons, flat_map_app, map_app, sumQ_app. pose proof (T 0%nat c ltac:(cbn; lia)) as A. cbn [nth] in A. rewrite A.
    rewrite (IH tab) by (try lia; intros g c' Hg; apply (T (S g)); cbn; lia). reflexivity.
  - rewrite <- ply_parts. apply sumQ_perm, Permutation_map. rewrite P. apply both_plies_perm; auto.
Qed.
Print Assumptions C74_assumed_symmetric_partial.

(** refuted for asymmetric laminates: the table of the partial lamination parameters is in the
    order of optimisation but is read at the positions of the plies *)
Theorem C74_assumed_asymmetric_refuted : ~ (forall angles cos_sin ss levels tab,
  (1 <= length ss)%nat -> (forall a, In a ss -> In a angles) ->
  Permutation (concat levels) (ply_order false (length ss)) ->
  lampam_assumed angles (partial_lampams false cos_sin (length ss)) ss levels = Ok tab ->
  forall c, (sumQ (map (fun t => t c) tab) == lamination_parameter cos_sin ss c)%Q).
Proof.
  intros H.
  pose (cs := fun (a : Z) (k : nat) => if a =? 90 then (-1)%Q else 1%Q).
  specialize (H [0; 90] cs [0; 90; 0] [[0; 2; 1]%nat]).
  eassert (E : lampam_assumed [0; 90] (partial_lampams false cs 3) [0; 90; 0] [[0; 2; 1]%nat] = Ok _) by reflexivity.
  specialize (H _ ltac:(cbn; lia) ltac:(cbn; tauto) (Permutation_refl _) E 8%nat). vm_compute in H. discriminate.
Qed.
Print Assumptions C74_assumed_asymmetric_refuted.

Example C74_example : let ss := [45; 0; -45; 0; 45] in
  ss = rev ss /\ Permutation (concat [[0; 1]; [2]]%nat) (ply_order true (length ss)).
Proof. split; reflexivity. Qed.
