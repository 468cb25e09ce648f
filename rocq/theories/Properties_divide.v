(* Properties_divide.v - property theorems C18, C19, C48, C49 (groups of plies). *)
From Verif Require Import Base Uniq Divers DiversProofs Divide DivideProofs.
Local Open Scope Z_scope.

Definition default_sizes : sizes := {| g_min := 4; g_max := 12 |}.

(* ------------------------------------------------------------------ *)
(** ** C18 *)

(** the division succeeds whenever one exists, is a division and uses as few groups as
    possible; [h] plies are to be divided *)
Theorem C18_division_found : forall (sym : bool) g n_lam,
  1 <= g_min g <= g_max g ->
  let h := if sym then n_lam / 2 else n_lam in
  (exists l0, l0 <> [] /\ (forall x, In x l0 -> g_min g <= x <= g_max g) /\ sumZ l0 = h) ->
  exists n l, divide_thickest sym g n_lam = Ok (n, l) /\ zlen l = n /\
    (forall x, In x l -> g_min g <= x <= g_max g) /\ sumZ l = h /\
    forall l', l' <> [] -> (forall x, In x l' -> g_min g <= x <= g_max g) -> sumZ l' = h -> n <= zlen l'.
Proof.
  intros sym g n_lam Hg h Hex.
  destruct (divide_ok sym g n_lam Hg Hex) as [n [l [E [L [[_ [B S]] M]]]]].
  exists n, l; split; auto; split; auto; split; auto; split; auto.
  intros l' A1 A2 A3; apply M; split; auto.
Qed.
Print Assumptions C18_division_found.

(** when there is none, an exception is raised *)
Theorem C18_no_division_raises : forall (sym : bool) g n_lam,
  1 <= g_min g <= g_max g ->
  let h := if sym then n_lam / 2 else n_lam in
  ~ (exists l0, l0 <> [] /\ (forall x, In x l0 -> g_min g <= x <= g_max g) /\ sumZ l0 = h) ->
  exists e, divide_thickest sym g n_lam = Err e.
Proof. exact divide_err. Qed.
Print Assumptions C18_no_division_raises.

(** forbidden_ply_counts: exactly the ply counts without a division, as long as plies are
    left beside the covering plies *)
Theorem C18_forbidden_ply_counts_partial : forall (sym : bool) g n_cov n_min n_max n,
  1 <= g_min g <= g_max g ->
  let h := if sym then (n - 2 * n_cov) / 2 else n - 2 * n_cov in
  1 <= h ->
  (In n (forbidden_ply_counts sym g n_cov n_min n_max) <->
   n_min <= n <= n_max /\ exists e, divide_thickest sym g (n - 2 * n_cov) = Err e).
Proof.
  intros sym g n_cov n_min n_max n Hg h Hh. unfold forbidden_ply_counts. rewrite filter_In, in_map_iff.
  rewrite (forbidden_iff sym g n_cov n Hg Hh). fold h.
  assert (R : (exists k, n_min + Z.of_nat k = n /\ In k (seq 0 (Z.to_nat (n_max + 1 - n_min)))) <-> n_min <= n <= n_max).
  { split.
    - intros [k [<- Hk]]; apply in_seq in Hk; lia.
    - intros H; exists (Z.to_nat (n - n_min)); rewrite in_seq; lia. }
  rewrite R. split; intros [H1 H2]; split; auto.
  - apply divide_err; auto.
  - intros Hex. destruct (divide_ok sym g (n - 2 * n_cov) Hg Hex) as [a [b [E _]]].
    destruct H2 as [e E2]; congruence.
Qed.
Print Assumptions C18_forbidden_ply_counts_partial.

(** refuted: a laminate made of covering plies only is not listed but cannot be divided
    (unassigned variable) *)
Theorem C18_only_covering_plies_refuted : forall g, 1 <= g_min g <= g_max g -> forall n_cov,
  ~ In (2 * n_cov) (forbidden_ply_counts true g n_cov (2 * n_cov) (2 * n_cov)) /\
  divide_thickest true g (2 * n_cov - 2 * n_cov) = Err Unbound.
Proof.
  intros g Hg n_cov. assert (C : cdiv 0 (g_max g) = 0) by (unfold cdiv; rewrite Z.opp_0, Z.div_0_l by lia; auto).
  assert (D : 0 / g_min g = 0) by (apply Z.div_0_l; lia).
  split.
  - unfold forbidden_ply_counts; rewrite filter_In; intros [_ H]. unfold forbidden in H.
    rewrite Z.sub_diag in H. change (0 / 2) with 0 in H. rewrite C, D in H. discriminate.
  - unfold divide_thickest. rewrite Z.sub_diag. change (0 / 2) with 0. rewrite C, D. cbn [Z.ltb Z.compare].
    change (Z.to_nat (0 + 1 - 0)) with 1%nat. cbn [group_loop].
    rewrite Z.mul_0_r. change (0 * g_max g - 0) with 0. reflexivity.
Qed.
Print Assumptions C18_only_covering_plies_refuted.

Example C18_example :
  divide_thickest true default_sizes (50 - 0) = Ok (3, [4; 9; 12]) /\
  divide_thickest false default_sizes (39 - 2) = Ok (4, [4; 9; 12; 12]) /\
  divide_thickest true {| g_min := 5; g_max := 7 |} 17 = Err (Raised NoDivision) /\
  forbidden_ply_counts true {| g_min := 5; g_max := 7 |} 1 10 24 = [10; 11; 18; 19; 20; 21].
Proof. vm_compute; auto. Qed.

(* ------------------------------------------------------------------ *)
(** ** C19 *)

(** every panel, however the thickest one was divided: the loop ends, every group keeps
    between zero and all of its plies and the groups together have the plies of the panel
    beside the covering plies (and the middle ply) *)
Theorem C19_plies_per_group : forall (sym : bool) g n_cov n_max n groups l,
  1 <= g_min g <= g_max g ->
  divide_thickest sym g (n_max - 2 * n_cov) = Ok (groups, l) ->
  2 * n_cov <= n <= n_max ->
  exists p, plies_per_group (Z.to_nat (g_max g - g_min g + 1)) sym g n_max n l = Ok p /\
    Forall2 (fun size kept => 0 <= kept <= size) l p /\
    (if sym then 2 * n_cov + 2 * sumZ p + n mod 2 = n else 2 * n_cov + sumZ p = n).
Proof.
  intros sym g n_cov n_max n groups l Hg E Hn.
  assert (D : division g (if sym then (n_max - 2 * n_cov) / 2 else n_max - 2 * n_cov) l).
  { destruct (division_dec g (if sym then (n_max - 2 * n_cov) / 2 else n_max - 2 * n_cov) Hg) as [_ _].
    destruct (divide_ok sym g (n_max - 2 * n_cov) Hg) as [a [b [E2 [_ [D _]]]]].
    - destruct (Classical_div sym g (n_max - 2 * n_cov) Hg) as [H|H]; auto.
      destruct (divide_err sym g _ Hg H); congruence.
    - assert (l = b) by congruence. subst; auto. }
  destruct (plies_per_group_spec sym g n_cov n_max n l Hg D Hn) as [p [Ep [_ [B S]]]].
  exists p; split; auto; split; auto. destruct sym; rewrite S; [|lia].
  pose proof (Z.div_mod n 2 ltac:(lia)). lia.
Qed.
Print Assumptions C19_plies_per_group.

(** refuted for a panel with fewer plies than the covering rule protects: a group would
    have a negative number of plies *)
Theorem C19_panel_thinner_than_covering_refuted :
  exists p, plies_per_group 9 true default_sizes 12 2 [4] = Ok p /\ In (-1) p /\
    divide_thickest true default_sizes (12 - 2 * 2) = Ok (1, [4]).
Proof. eexists; vm_compute; auto. Qed.
Print Assumptions C19_panel_thinner_than_covering_refuted.

Example C19_example :
  divide_thickest true default_sizes (51 - 2 * 0) = Ok (3, [4; 9; 12]) /\
  plies_per_group 9 true default_sizes 51 38 [4; 9; 12] = Ok [3; 7; 9] /\
  plies_per_group 9 true default_sizes 51 37 [4; 9; 12] = Ok [3; 7; 8] /\
  plies_per_group 9 false default_sizes 25 20 [4; 9; 12] = Ok [4; 7; 9].
Proof. vm_compute; auto. Qed.

(* ------------------------------------------------------------------ *)
(** ** C48 *)

(** the recorded first plies are running sums of the group sizes, in the order of the
    groups in the laminate; thinner panels start after the covering plies *)
Theorem C48_first_plies_symmetric_partial : forall n_cov n_max n l i,
  n <> n_max -> (i < length l)%nat ->
  nth i (n_first_plies true n_cov n_max n l) 0 = n_cov + sumZ (firstn i l).
Proof.
  intros n_cov n_max n l i Hn Hi. unfold n_first_plies. apply Z.eqb_neq in Hn; rewrite Hn.
  apply first_plies_nth; auto.
Qed.
Print Assumptions C48_first_plies_symmetric_partial.

Theorem C48_first_plies_asymmetric_partial : forall n_cov n_max n l i,
  n <> n_max ->
  let laid_out (g : list Z) := evens g ++ rev (odds g) in
  (i < length l)%nat ->
  nth i (laid_out (n_first_plies false n_cov n_max n l)) 0 = n_cov + sumZ (firstn i (laid_out l)).
Proof.
  intros n_cov n_max n l i Hn laid Hi. unfold n_first_plies. apply Z.eqb_neq in Hn; rewrite Hn.
  unfold laid. rewrite asym_first_plies_spec. apply first_plies_nth.
  rewrite app_length, rev_length. destruct (evens_odds_length l); lia.
Qed.
Print Assumptions C48_first_plies_asymmetric_partial.

(** refuted for the thickest panel: the covering plies are forgotten *)
Theorem C48_thickest_panel_refuted : forall sym n_cov n_max l i, (i < length l)%nat ->
  sym = true -> nth i (n_first_plies sym n_cov n_max n_max l) 0 = sumZ (firstn i l).
Proof.
  intros sym n_cov n_max l i Hi ->. unfold n_first_plies. rewrite Z.eqb_refl.
  rewrite first_plies_nth by auto; lia.
Qed.
Print Assumptions C48_thickest_panel_refuted.

Example C48_example :
  n_first_plies true 1 52 52 [4; 9; 12] = [0; 4; 13] /\ n_first_plies true 1 52 38 [4; 6; 8] = [1; 5; 11] /\
  n_first_plies false 1 40 30 [4; 9; 12; 3] = [1; 20; 5; 17].
Proof. vm_compute; auto. Qed.

(* ------------------------------------------------------------------ *)
(** ** C49 *)

(** from a panel to a thinner one the drops of a group may decrease, by one ply at most *)
Theorem C49_group_drops_decrease_by_at_most_one_partial : forall (sym : bool) g n_cov n_max n1 n2 l d1 d2 fuel,
  1 <= g_min g <= g_max g ->
  (l <> [] /\ (forall x, In x l -> g_min g <= x <= g_max g) /\
   sumZ l = if sym then (n_max - 2 * n_cov) / 2 else n_max - 2 * n_cov) ->
  n2 <= n1 <= n_max -> fuel = Z.to_nat (g_max g - g_min g + 1) ->
  panel_drops fuel sym g n_max n1 l = Ok d1 -> panel_drops fuel sym g n_max n2 l = Ok d2 ->
  Forall2 (fun a b => a <= b + 1) d1 d2.
Proof. exact drops_not_much_less. Qed.
Print Assumptions C49_group_drops_decrease_by_at_most_one_partial.

(** refuted with the default group sizes 4..12: 50, 38 and 36 plies; the 36-ply panel drops
    fewer plies of the second group than the 38-ply panel, so it cannot be blended with it *)
Theorem C49_group_drops_monotone_refuted :
  ~ (forall g n_max n1 n2 groups l d1 d2, 1 <= g_min g <= g_max g ->
      divide_thickest true g n_max = Ok (groups, l) -> 0 <= n2 <= n1 -> n1 <= n_max ->
      panel_drops (Z.to_nat (g_max g - g_min g + 1)) true g n_max n1 l = Ok d1 ->
      panel_drops (Z.to_nat (g_max g - g_min g + 1)) true g n_max n2 l = Ok d2 ->
      Forall2 Z.le d1 d2).
Proof.
  intros H. specialize (H default_sizes 50 38 36 3 [4; 9; 12] [0; 3; 3] [1; 2; 4]).
  assert (F : Forall2 Z.le [0; 3; 3] [1; 2; 4]) by (apply H; cbn [default_sizes g_min g_max]; try lia; vm_compute; reflexivity).
  inversion F as [|? ? ? ? _ F2]; subst. inversion F2; subst. lia.
Qed.
Print Assumptions C49_group_drops_monotone_refuted.

Example C49_example :
  divide_thickest true default_sizes 50 = Ok (3, [4; 9; 12]) /\
  panel_drops 9 true default_sizes 50 38 [4; 9; 12] = Ok [0; 3; 3] /\
  panel_drops 9 true default_sizes 50 36 [4; 9; 12] = Ok [1; 2; 4].
Proof. vm_compute; auto. Qed.
