(* Properties_levels.v - C84: weightings of the levels of the beam search and objective of a node. *)
From Coq Require Import Lqa Setoid.
From Verif Require Import Base Format Moments MomentsProofs Properties_moments Objectives ObjectivesProofs Properties_objectives Levels LampamBound.
Local Open Scope Z_scope.

(* ------------------------------------------------------------------ *)
(** ** Specification *)

(** distance of lamination parameters to their targets *)
Definition misfit (w t : list Q) (x : nat -> Q) : Q := sum_to 12 (fun k => nth k w 0 * ((x k - nth k t 0) * (x k - nth k t 0)))%Q.
(** of all the panels *)
Definition structure_misfit (pw : list Q) (weights targets : list (list Q)) (xs : list (nat -> Q)) : Q :=
  sum_to (length xs) (fun i => nth i pw 0 * misfit (nth i weights []) (nth i targets []) (nth i xs (fun _ => 0)))%Q.

(** moment of order 0 (indices 0-3), 1 (4-7) or 2 (8-11) *)
Definition order_of (k : nat) : mom -> Q := if (k <? 4)%nat then m_area else if (k <? 8)%nat then m_first else m_second.
(** moments of the plies that the panel keeps in the columns up to l *)
Definition covered (sym : bool) (n : nat) (row : list Z) (l k : nat) : Q :=
  sumQ (firstn (countb kept (firstn (S l) row)) (map (order_of k) (mom_areas_plus sym n))).

(** vectors of weightings: 12 non-negative entries *)
Definition weighting12 (w : list Q) : Prop := length w = 12%nat /\ Forall (fun x => 0 <= x)%Q w.

(* ------------------------------------------------------------------ *)
Lemma len12 {A} (w : list A) : length w = 12%nat -> exists a b c d e f g h i j k l, w = [a; b; c; d; e; f; g; h; i; j; k; l].
Proof.
  intros H. do 12 (destruct w as [|? w]; [discriminate|]). destruct w; [|discriminate]. do 12 eexists. reflexivity.
Qed.
Lemma sum12 l : length l = 12%nat -> (sumQ l == sum_to 12 (fun k => nth k l 0))%Q.
Proof. intros H. destruct (len12 l H) as (a & b & c & d & e & f & g & h & i & j & k & m & ->). cbn [sum_to nth]. unfold sumQ; cbn [fold_right]. ring. Qed.
Lemma spread_length w a f s : length w = 12%nat -> length (spread w a f s) = 12%nat.
Proof. intros H. destruct (len12 w H) as (? & ? & ? & ? & ? & ? & ? & ? & ? & ? & ? & ? & ->). reflexivity. Qed.
Lemma spread_nth w a f s k : length w = 12%nat -> (k < 12)%nat ->
  nth k (spread w a f s) 0%Q = (nth k w 0 * (if (k <? 4)%nat then a else if (k <? 8)%nat then f else s))%Q.
Proof.
  intros H Hk. destruct (len12 w H) as (? & ? & ? & ? & ? & ? & ? & ? & ? & ? & ? & ? & ->).
  do 12 (destruct k as [|k]; [reflexivity|]). lia.
Qed.

Lemma normalised_spec l : length l = 12%nat -> Forall (fun x => 0 <= x)%Q l ->
  length (normalised l) = 12%nat /\ (forall k, (k < 12)%nat -> 0 <= nth k (normalised l) 0)%Q /\
  ((forall k, (k < 12)%nat -> nth k l 0 <= 1 # 100000000 /\ nth k (normalised l) 0 == nth k l 0)%Q \/
   (0 < sum_to 12 (fun k => nth k l 0))%Q /\ (forall k, (k < 12)%nat -> nth k (normalised l) 0 == nth k l 0 / sum_to 12 (fun k => nth k l 0))%Q /\
   (sum_to 12 (fun k => nth k (normalised l) 0) == 1)%Q).
Proof.
  intros L F. assert (N : forall k, (k < 12)%nat -> (0 <= nth k l 0)%Q) by (intros k Hk; rewrite Forall_forall in F; apply F, nth_In; lia).
  unfold normalised. destruct (forallb close0 l) eqn:E.
  - split; [exact L|]. split; [exact N|]. left. intros k Hk. split; [|reflexivity].
    rewrite forallb_forall in E. assert (Hk' : (k < length l)%nat) by lia. specialize (E (nth k l 0%Q) (nth_In _ _ Hk')). unfold close0 in E. apply Qle_bool_iff in E.
    pose proof (Qle_Qabs (nth k l 0)%Q). lra.
  - assert (P : (0 < sumQ l)%Q).
    { clear L N. apply not_true_iff_false in E. revert E F. induction l as [|x l IH]; intros E F; [exfalso; apply E; reflexivity|].
      inversion F as [|? ? F1 F2]; subst. change (sumQ (x :: l)) with (x + sumQ l)%Q.
      assert (0 <= sumQ l)%Q as Ns by (clear -F2; induction F2 as [|x l Hx F IH]; [cbn; lra|change (0 <= x + sumQ l)%Q; lra]).
      destruct (close0 x) eqn:C.
      - assert (0 < sumQ l)%Q by (apply IH; auto; intros Y; apply E; cbn [forallb]; rewrite C, Y; reflexivity). lra.
      - apply not_true_iff_false in C. assert (~ (x <= 1 # 100000000)%Q) by (intros Y; apply C, Qle_bool_iff; rewrite Qabs_pos by exact F1; exact Y). lra. }
    pose proof (sum12 l L) as S. rewrite S in P.
    assert (V : forall k, (k < 12)%nat -> (nth k (map (fun x => Qred (x / sumQ l)) l) 0 == nth k l 0 / sum_to 12 (fun k => nth k l 0))%Q).
    { intros k Hk. rewrite map_nth_lt by lia. rewrite Qred_correct, S. reflexivity. }
    set (s := sum_to 12 (fun k => nth k l 0%Q)) in *.
    split; [rewrite map_length; exact L|]. split.
    { intros k Hk. rewrite V by exact Hk. unfold Qdiv. apply Qmult_le_0_compat; [apply N, Hk|]. apply Qinv_le_0_compat. lra. }
    right. split; [exact P|]. split; [exact V|].
    rewrite (sum_to_ext 12 _ (fun k => nth k l 0 / s)%Q) by exact V.
    assert (forall n, sum_to n (fun k => nth k l 0 / s) == sum_to n (fun k => nth k l 0) / s)%Q as ->.
    { induction n as [|n IH]; cbn [sum_to]; [field; lra|]. rewrite IH. field. lra. }
    fold s. field. lra.
Qed.

(** cumulated moments *)
Lemma moments_found sym n row k : (1 <= n)%nat -> (countb kept row <= length (ply_order sym n))%nat ->
  exists r, calc_mom_of_areas2 row (map (order_of k) (mom_areas_plus sym n)) = Ok r /\ length r = length row /\
    forall l, (l < length row)%nat -> (nth l r 0 == covered sym n row l k)%Q.
Proof.
  intros Hn C. destruct (C21_positive_moments sym n Hn) as [L _].
  destruct (cumul_spec row (map (order_of k) (mom_areas_plus sym n)) (repeat 0%Q (length row))) as [r [E [Lr H]]]; [apply repeat_length|rewrite map_length; lia|].
  exists r. split; [exact E|]. split; [exact Lr|]. intros l Hl. rewrite H, nth_repeat by exact Hl. unfold covered. ring.
Qed.
Lemma covered_nonneg sym n row l k : (1 <= n)%nat -> (0 <= covered sym n row l k)%Q.
Proof.
  intros Hn. destruct (C21_positive_moments sym n Hn) as (_ & P & _). unfold covered.
  assert (F : Forall (fun x => 0 <= x)%Q (map (order_of k) (mom_areas_plus sym n))).
  { apply Forall_forall. intros x Hx. apply in_map_iff in Hx. destruct Hx as [m [<- Hm]]. destruct (P m Hm) as (A & B & D). unfold order_of. destruct (k <? 4)%nat; auto. destruct (k <? 8)%nat; auto. }
  revert F. generalize (countb kept (firstn (S l) row)). induction (map (order_of k) (mom_areas_plus sym n)) as [|x m IH]; intros [|c] F; cbn [firstn]; try (cbn; lra).
  inversion F; subst. change (0 <= x + sumQ (firstn c m))%Q. specialize (IH c H2). lra.
Qed.
Lemma covered_all sym n row l k : (1 <= n)%nat -> (l + 1 = length row)%nat -> countb kept row = length (ply_order sym n) -> (covered sym n row l k == 1)%Q.
Proof.
  intros Hn Hl C. unfold covered. rewrite (firstn_all2 row) by lia. destruct (C21_positive_moments sym n Hn) as (L & _ & S1 & S2 & S3).
  rewrite firstn_all2 by (rewrite map_length; lia). unfold order_of. destruct (k <? 4)%nat; auto. destruct (k <? 8)%nat; auto.
Qed.

(** The weightings of a panel at every level: 12 non-negative numbers, proportional to those of
    the panel times the moments of the plies already placed, with the sum 1; unless all
    the products are at most 1e-8, which are then used as they are *)
Theorem C84_level_weightings : forall sym n row w,
  (1 <= n)%nat -> (countb kept row <= length (ply_order sym n))%nat -> weighting12 w ->
  exists T, level_weightings sym n row w = Ok T /\ length T = length row /\
  forall l, (l < length row)%nat -> let W := nth l T [] in let raw k := (nth k w 0 * covered sym n row l k)%Q in
    weighting12 W /\
    ((forall k, (k < 12)%nat -> raw k <= 1 # 100000000 /\ nth k W 0 == raw k)%Q \/
     (0 < sum_to 12 raw)%Q /\ (forall k, (k < 12)%nat -> nth k W 0 == raw k / sum_to 12 raw)%Q /\ (sum_to 12 (fun k => nth k W 0) == 1)%Q).
Proof.
  intros sym n row w Hn C [L F]. unfold level_weightings.
  destruct (moments_found sym n row 0 Hn C) as (ra & Ea & La & Ha). destruct (moments_found sym n row 4 Hn C) as (rf & Ef & Lf & Hf). destruct (moments_found sym n row 8 Hn C) as (rs & Es & Ls & Hs).
  change (order_of 0) with m_area in Ea. change (order_of 4) with m_first in Ef. change (order_of 8) with m_second in Es. rewrite Ea, Ef, Es. cbn [bind].
  eexists. split; [reflexivity|]. split; [rewrite map_length, seq_length; reflexivity|]. intros l Hl. cbv zeta.
  set (sp := spread w (nth l ra 0%Q) (nth l rf 0%Q) (nth l rs 0%Q)).
  assert (nth l (map (fun l => normalised (spread w (nth l ra 0%Q) (nth l rf 0%Q) (nth l rs 0%Q))) (seq 0 (length row))) [] = normalised sp) as ->.
  { set (g := fun l : nat => normalised (spread w (nth l ra 0%Q) (nth l rf 0%Q) (nth l rs 0%Q))).
    rewrite (nth_indep _ [] (g 0%nat)) by (rewrite map_length, seq_length; exact Hl).
    rewrite (map_nth g), seq_nth by exact Hl. reflexivity. }
  assert (V : forall k, (k < 12)%nat -> (nth k sp 0 == nth k w 0 * covered sym n row l k)%Q).
  { intros k Hk. unfold sp. rewrite spread_nth by auto. specialize (Ha l Hl). specialize (Hf l Hl). specialize (Hs l Hl). unfold covered, order_of in *.
    cbn [Nat.ltb Nat.leb] in Ha, Hf, Hs. destruct (k <? 4)%nat; [rewrite Ha; reflexivity|]. destruct (k <? 8)%nat; [rewrite Hf|rewrite Hs]; reflexivity. }
  assert (Ns : Forall (fun x => 0 <= x)%Q sp).
  { apply Forall_forall. intros x Hx. apply (In_nth _ _ 0%Q) in Hx. destruct Hx as [k [Hk <-]]. unfold sp in Hk. rewrite spread_length in Hk by exact L. rewrite V by exact Hk.
    apply Qmult_le_0_compat; [rewrite Forall_forall in F; apply F, nth_In; lia|apply covered_nonneg, Hn]. }
  destruct (normalised_spec sp (spread_length w _ _ _ L) Ns) as (N1 & N2 & N3). clearbody sp.
  split. { split; [exact N1|]. apply Forall_forall. intros x Hx. apply (In_nth _ _ 0%Q) in Hx. destruct Hx as [k [Hk <-]]. apply N2. lia. }
  pose proof (sum_to_ext 12 _ _ V) as Sm. destruct N3 as [N3|(P & N3 & N4)].
  - left. intros k Hk. destruct (N3 k Hk) as [A B]. rewrite V in A, B by exact Hk. auto.
  - right. split; [rewrite <- Sm; exact P|]. split; [|exact N4]. intros k Hk. rewrite N3, V by exact Hk. rewrite Sm. reflexivity.
Qed.
Print Assumptions C84_level_weightings.

(** in the last column all the plies of the panel are placed and the weightings are its own *)
Theorem C84_last_column : forall sym n row w T,
  (1 <= n)%nat -> countb kept row = length (ply_order sym n) -> weighting12 w -> (sum_to 12 (fun k => nth k w 0) == 1)%Q ->
  level_weightings sym n row w = Ok T -> forall l, (l + 1 = length row)%nat -> forall k, (k < 12)%nat -> (nth k (nth l T []) 0 == nth k w 0)%Q.
Proof.
  intros sym n row w T Hn C W S E l Hl. destruct (C84_level_weightings sym n row w Hn ltac:(lia) W) as (T' & E' & _ & H). rewrite E in E'. injection E' as <-.
  destruct (H l ltac:(lia)) as (_ & H1). cbv zeta in H1. clear H.
  assert (V : forall k, (k < 12)%nat -> (nth k w 0 * covered sym n row l k == nth k w 0)%Q) by (intros k _; rewrite covered_all by auto; ring).
  pose proof (sum_to_ext 12 _ _ V) as Sm. rewrite S in Sm. destruct H1 as [H1|(_ & H1 & _)]; intros k Hk.
  - rewrite (proj2 (H1 k Hk)). apply V, Hk.
  - rewrite H1, Sm, V by exact Hk. field.
Qed.
Print Assumptions C84_last_column.

(* ------------------------------------------------------------------ *)
(** ** objective of a node *)
Lemma twelve_nth x k : (k < 12)%nat -> (nth k (twelve_of x) 0 == x k)%Q.
Proof.
  intros Hk. unfold twelve_of. rewrite (nth_indep _ 0%Q ((fun k => Qred (x k)) 0%nat)) by (rewrite map_length, seq_length; exact Hk).
  rewrite (map_nth (fun k => Qred (x k))), seq_nth by exact Hk. apply Qred_correct.
Qed.

Lemma each_node : forall xs targets weights, length targets = length xs -> length weights = length xs -> Forall (fun t => length t = 12%nat) targets -> Forall weighting12 weights ->
  exists obj, calc_obj_each_panel (map (fun x => (fst (fst x), snd (fst x), snd x)) (List.combine (List.combine (map twelve_of xs) targets) weights)) = Ok obj /\
    length obj = length xs /\ forall i, (i < length xs)%nat -> (nth i obj 0 == misfit (nth i weights []) (nth i targets []) (nth i xs (fun _ => 0)))%Q.
Proof.
  induction xs as [|x xs IH]; intros [|t ts] [|w ws] L1 L2 F1 F2; try discriminate.
  { exists []. split; [reflexivity|]. split; [reflexivity|]. cbn; lia. }
  inversion F1 as [|? ? T1 F1']; inversion F2 as [|? ? W1 F2']; subst. cbn [length] in *. destruct (IH ts ws ltac:(lia) ltac:(lia) F1' F2') as (obj & E & L & H).
  cbn [map List.combine fst snd calc_obj_each_panel]. destruct W1 as [Lw Nw].
  destruct (calc_obj_one_panel (twelve_of x) t w) as [o|] eqn:Eo.
  2: { unfold calc_obj_one_panel in Eo. rewrite T1, Lw in Eo. cbn in Eo. discriminate. }
  rewrite E. cbn [bind]. exists (o :: obj). split; [reflexivity|]. split; [cbn; lia|]. intros [|i] Hi; cbn [nth]; [|apply H; lia].
  apply C39_one_panel in Eo; [|intros y Hy; rewrite Forall_forall in Nw; auto]. destruct Eo as (_ & _ & _ & V & _). rewrite V, T1. unfold misfit. apply sum_to_ext. intros k Hk. rewrite twelve_nth by exact Hk. reflexivity.
Qed.

(** the objective of a node is the weighted distance of its lamination parameters to the
    targets, without any penalty *)
Theorem C84_node_objective : forall targets weights pw coeffs xs,
  length targets = length xs -> length weights = length xs -> length pw = length xs ->
  Forall (fun t => length t = 12%nat) targets -> Forall weighting12 weights ->
  exists q, node_objective targets weights pw coeffs xs = Ok q /\ (q == structure_misfit pw weights targets xs)%Q.
Proof.
  intros targets weights pw coeffs xs L1 L2 L3 F1 F2. unfold node_objective. destruct (each_node xs targets weights L1 L2 F1 F2) as (obj & E & L & H). rewrite E. cbn [bind].
  match goal with |- exists q, calc_obj_multi_panel _ _ ?p ?k = Ok q /\ _ => destruct (C39_value obj pw p k (length xs) L L3) as [r [Er R]] end.
  { unfold all_args, proper; cbn [p_diso p_contig p_10 p_bal_ipo p_oopo p_weight]. rewrite map_length. tauto. }
  exists r. split; [exact Er|]. rewrite R. apply sum_to_ext. intros i Hi. unfold panel_value, pen; cbn [p_diso p_contig p_10 p_bal_ipo p_oopo p_weight c_diso c_contig c_10 c_bal_ipo c_oopo c_weight].
  assert (nth i (map (fun _ : lampam => 0%Q) xs) 0%Q = 0%Q) as ->.
  { clear. revert i; induction xs as [|x xs IH]; intros [|i]; cbn; auto. }
  pose proof (H i Hi) as V. set (m := misfit _ _ _) in *. clearbody m. rewrite V. ring.
Qed.
Print Assumptions C84_node_objective.

Lemma misfit_range w t x : weighting12 w -> (sum_to 12 (fun k => nth k w 0) <= 1)%Q -> (forall k, (k < 12)%nat -> -1 <= nth k t 0 <= 1)%Q -> within x ->
  (0 <= misfit w t x <= 4)%Q.
Proof.
  intros [L F] S T X.
  assert (N : forall k, (k < 12)%nat -> (0 <= nth k w 0)%Q) by (intros k Hk; rewrite Forall_forall in F; apply F, nth_In; lia).
  assert (B : forall k, (k < 12)%nat -> (0 <= nth k w 0 * ((x k - nth k t 0) * (x k - nth k t 0)) <= 4 * nth k w 0)%Q).
  { intros k Hk. specialize (N k Hk). specialize (T k Hk). specialize (X k). set (d := (x k - nth k t 0)%Q). assert (-2 <= d <= 2)%Q by (unfold d; lra).
    assert (0 <= d * d <= 4)%Q by (split; nra). clearbody d. split; nra. }
  unfold misfit. split; [apply sum_to_nonneg; intros; apply B; auto|].
  apply (Qle_trans _ (sum_to 12 (fun k => 4 * nth k w 0)%Q)); [apply sum_to_le; intros; apply B; auto|].
  assert (forall n, sum_to n (fun k => 4 * nth k w 0) == 4 * sum_to n (fun k => nth k w 0))%Q as ->; [|lra].
  induction n as [|n IH]; cbn [sum_to]; [ring|]. rewrite IH. ring.
Qed.

(** between 0 and 4 times the sum of the weightings of the panels *)
Theorem C84_node_range : forall targets weights pw xs,
  length targets = length xs -> length weights = length xs -> length pw = length xs ->
  Forall (Forall (fun t => -1 <= t <= 1)%Q) targets -> Forall (fun w => weighting12 w /\ (sum_to 12 (fun k => nth k w 0) <= 1)%Q) weights -> Forall (fun p => 0 <= p)%Q pw ->
  (forall x, In x xs -> within x) -> (0 <= structure_misfit pw weights targets xs <= 4 * sumQ pw)%Q.
Proof.
  intros targets weights pw xs L1 L2 L3 F1 F2 F3 X.
  assert (B : forall i, (i < length xs)%nat -> (0 <= nth i pw 0 * misfit (nth i weights []) (nth i targets []) (nth i xs (fun _ => 0)) <= 4 * nth i pw 0)%Q).
  { intros i Hi. rewrite Forall_forall in F1, F2, F3. assert (Hi1 : (i < length pw)%nat) by lia. assert (Hi2 : (i < length weights)%nat) by lia. assert (Hi3 : (i < length targets)%nat) by lia. specialize (F3 _ (nth_In pw 0%Q Hi1)). destruct (F2 _ (nth_In weights [] Hi2)) as [W1 W2].
    destruct (misfit_range (nth i weights []) (nth i targets []) (nth i xs (fun _ => 0%Q)) W1 W2) as [M1 M2].
    - intros k Hk. specialize (F1 _ (nth_In targets [] Hi3)). rewrite Forall_forall in F1. destruct (Nat.lt_ge_cases k (length (nth i targets []))); [apply F1, nth_In; lia|rewrite nth_overflow by lia; lra].
    - apply X, nth_In, Hi.
    - set (m := misfit _ _ _) in *. clearbody m. split; nra. }
  unfold structure_misfit. split; [apply sum_to_nonneg; intros; apply B; auto|].
  apply (Qle_trans _ (sum_to (length xs) (fun k => 4 * nth k pw 0)%Q)); [apply sum_to_le; intros; apply B; auto|].
  assert (forall n, sum_to n (fun k => 4 * nth k pw 0) == 4 * sum_to n (fun k => nth k pw 0))%Q as ->.
  { induction n as [|n IH]; cbn [sum_to]; [ring|]. rewrite IH. ring. }
  assert (sumQ pw == sum_to (length xs) (fun k => nth k pw 0))%Q as ->; [|lra].
  rewrite <- total_sum_to. apply total_of; [exact L3|]. intros; reflexivity.
Qed.
Print Assumptions C84_node_range.
