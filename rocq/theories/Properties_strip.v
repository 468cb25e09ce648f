(* Properties_strip.v - property theorems C13-C17, C41, C43, C45 (multi-panel
   structures and their blending strip). *)
From Verif Require Import Base Uniq Divers DiversProofs Spacing SpacingProofs Strip StripProofs StripGraph StripWeights.
Local Open Scope Z_scope.

Definition mkp (i n : Z) (ng : list Z) (w : Q) : panel :=
  {| p_ID := i; p_nplies := n; p_neigh := ng; p_weighting := w; p_area := 2 |}.
(** a square of panels with a hub; panel 40 has the same thickness as panel 10 *)
Definition demo : list panel :=
  [mkp 10 16 [20; 30] 1; mkp 20 12 [10] 2; mkp 30 20 [40] 3; mkp 40 16 [30; 20] 4].

(* ------------------------------------------------------------------ *)
(** ** C13 *)

(** each occurring ply count once, in increasing order *)
Theorem C13_strip_lists_each_ply_count_once : forall ps,
  StronglySorted Z.lt (strip_plies ps) /\ NoDup (strip_plies ps) /\
  forall n, In n (strip_plies ps) <-> exists p, In p ps /\ p_nplies p = n.
Proof.
  intros ps; split; [apply strip_sorted|]; split; [apply uniq_nodup | apply strip_in].
Qed.
Print Assumptions C13_strip_lists_each_ply_count_once.

(** every panel is mapped to the strip entry with its own ply count *)
Theorem C13_panels_map_to_their_ply_count : forall ps i p, nth_error ps i = Some p ->
  exists k, nth_error (ind_panels_guide ps) i = Some k /\
    nth_error (strip_plies ps) k = Some (p_nplies p).
Proof.
  intros ps i p E.
  assert (Hi : (i < length ps)%nat) by (apply nth_error_Some; congruence).
  destruct (guide_spec ps i Hi) as [G1 G2]; cbn zeta in *.
  exists (nth i (ind_panels_guide ps) 0%nat); split.
  - apply nth_error_nth'; rewrite guide_length; auto.
  - rewrite (nth_error_nth' _ 0) by auto; f_equal; rewrite G2.
    unfold plies_at, n_plies_of; apply nth_error_nth; rewrite nth_error_map, E; auto.
Qed.
Print Assumptions C13_panels_map_to_their_ply_count.

(** the representative of a strip entry is the first panel with this ply count *)
Theorem C13_representatives : forall ps k n, nth_error (strip_plies ps) k = Some n ->
  exists i p, nth_error (ind_for_reduc ps) k = Some i /\ nth_error ps i = Some p /\
    p_nplies p = n /\ nth_error (ind_panels_guide ps) i = Some k /\
    forall j q, (j < i)%nat -> nth_error ps j = Some q -> p_nplies q <> n.
Proof.
  intros ps k n E.
  assert (Hk : (k < length (strip_plies ps))%nat) by (apply nth_error_Some; congruence).
  destruct (reduc_spec ps k Hk) as [R1 [R2 [R3 R4]]]; cbn zeta in *.
  apply (nth_error_nth _ _ 0) in E; rewrite E in *.
  destruct (nth_error ps (nth k (ind_for_reduc ps) 0%nat)) as [p|] eqn:Ep;
    [|apply nth_error_None in Ep; lia].
  exists (nth k (ind_for_reduc ps) 0%nat), p; split; [apply nth_error_nth'; rewrite reduc_length; auto|].
  split; auto; split; [|split].
  - rewrite <- R2; unfold plies_at, n_plies_of; symmetry; apply nth_error_nth; rewrite nth_error_map, Ep; auto.
  - rewrite <- R4 at 2; apply nth_error_nth'; rewrite guide_length; auto.
  - intros j q Hj Eq X; apply (R3 j Hj); unfold plies_at, n_plies_of; apply nth_error_nth.
    rewrite nth_error_map, Eq; cbn; congruence.
Qed.
Print Assumptions C13_representatives.

(** reducing extended data gives the data back *)
Theorem C13_reduce_after_extend : forall A (d : A) ps (data : list A),
  length data = length (strip_plies ps) ->
  exists full, extend_after_guide_based_blending ps data = Ok full /\
    length full = length ps /\
    (forall i, (i < length ps)%nat ->
       exists k, (k < length data)%nat /\ nth k (strip_plies ps) 0 = plies_at ps i /\
                 nth_error full i = nth_error data k) /\
    reduce_for_guide_based_blending ps full = Ok data.
Proof. intros A d ps data; apply reduce_extend; auto. Qed.
Print Assumptions C13_reduce_after_extend.

(** extending reduced data gives back data that only depends on the ply count *)
Theorem C13_extend_after_reduce : forall A (d : A) ps (full : list A),
  length full = length ps ->
  (forall i j, (i < length ps)%nat -> (j < length ps)%nat -> plies_at ps i = plies_at ps j ->
     nth_error full i = nth_error full j) ->
  exists data, reduce_for_guide_based_blending ps full = Ok data /\
    length data = length (strip_plies ps) /\
    extend_after_guide_based_blending ps data = Ok full.
Proof. intros A d ps full; apply extend_reduce; auto. Qed.
Print Assumptions C13_extend_after_reduce.

Theorem C13_panel_order_is_irrelevant : forall ps qs,
  Permutation ps qs -> strip_plies ps = strip_plies qs.
Proof. exact strip_perm. Qed.
Print Assumptions C13_panel_order_is_irrelevant.

Example C13_example :
  strip_plies demo = [12; 16; 20] /\ ind_panels_guide demo = [1; 0; 2; 1]%nat /\
  ind_for_reduc demo = [1; 0; 2]%nat /\
  extend_after_guide_based_blending demo [1; 2; 3] = Ok [2; 1; 3; 2] /\
  reduce_for_guide_based_blending demo [2; 1; 3; 2] = Ok [1; 2; 3].
Proof. vm_compute; auto. Qed.

(* ------------------------------------------------------------------ *)
(** ** C14: the thinnest panel with at least the requested number of plies, else the thickest *)
Theorem C14_reference_panel : forall plies r,
  StronglySorted Z.lt plies -> plies <> [] ->
  exists k, ind_ref plies r = Ok k /\ (k < length plies)%nat /\
    (forall j, (j < k)%nat -> nth j plies 0 < r) /\
    (r <= nth k plies 0 \/
     (k = (length plies - 1)%nat /\ forall j, (j < length plies)%nat -> nth j plies 0 < r)).
Proof. exact ind_ref_spec. Qed.
Print Assumptions C14_reference_panel.

(** for the strip of a structure the hypotheses always hold *)
Theorem C14_reference_panel_of_structure : forall ps r, ps <> [] ->
  exists k n, ind_ref (strip_plies ps) r = Ok k /\ nth_error (strip_plies ps) k = Some n /\
    (forall p, In p ps -> p_nplies p < n -> p_nplies p < r) /\
    (r <= n \/ forall p, In p ps -> p_nplies p <= n /\ p_nplies p < r).
Proof.
  intros ps r Hne.
  assert (Hne' : strip_plies ps <> []).
  { destruct ps as [|p t]; [congruence|]; intros X.
    assert (In (p_nplies p) (strip_plies (p :: t))) as Y by (apply strip_in; exists p; split; auto; left; auto).
    rewrite X in Y; destruct Y. }
  destruct (ind_ref_spec (strip_plies ps) r (strip_sorted ps) Hne') as [k [E [L [H1 H2]]]].
  exists k, (nth k (strip_plies ps) 0); split; auto; split; [apply nth_error_nth'; auto|].
  assert (Hidx : forall p, In p ps -> exists j, (j < length (strip_plies ps))%nat /\ nth j (strip_plies ps) 0 = p_nplies p).
  { intros p Hp; assert (In (p_nplies p) (strip_plies ps)) as Y by (apply strip_in; eauto).
    apply (In_nth _ _ 0) in Y; destruct Y as [j [J1 J2]]; eauto. }
  assert (Hs := strip_sorted ps).
  split.
  - intros p Hp Hlt; destruct (Hidx p Hp) as [j [J1 J2]]; rewrite <- J2 in *; apply H1.
    eapply sorted_between; eauto.
  - destruct H2 as [|[Ek Hall]]; [left; auto|right].
    intros p Hp; destruct (Hidx p Hp) as [j [J1 J2]]; rewrite <- J2; split; auto.
    destruct (Nat.eq_dec j k) as [->|]; [lia|].
    pose proof (ssorted_nth Z.lt (strip_plies ps) j k 0 Hs ltac:(lia)); lia.
Qed.
Print Assumptions C14_reference_panel_of_structure.

Example C14_example :
  ind_ref [12; 16; 20] 16 = Ok 1%nat /\ ind_ref [12; 16; 20] 17 = Ok 2%nat /\
  ind_ref [12; 16; 20] 5 = Ok 0%nat /\ ind_ref [12; 16; 20] 99 = Ok 2%nat /\ demo <> [].
Proof. vm_compute; repeat split; auto; discriminate. Qed.

(* ------------------------------------------------------------------ *)
(** ** C15; [pop] is the unspecified choice made by set.pop *)
Theorem C15_accepted_exactly_when_connected : forall pop ps,
  (exists bs, mp_boundaries pop ps = Ok bs) <->
  ps <> [] /\ distinct_ids ps /\ known_neighbours ps /\ connected ps.
Proof. exact mp_boundaries_iff. Qed.
Print Assumptions C15_accepted_exactly_when_connected.

Theorem C15_boundaries_listed_once : forall pop ps,
  ps <> [] -> distinct_ids ps -> known_neighbours ps -> connected ps ->
  exists bs, mp_boundaries pop ps = Ok bs /\ NoDup bs /\
    forall i j, In (i, j) bs <-> (i <= j)%nat /\ neighbours ps i j.
Proof.
  intros pop ps H1 H2 H3 H4; destruct (mp_boundaries_ok pop ps H1 H2 H3 H4) as [bs [E [S H]]].
  exists bs; split; auto; split; auto; apply plt_sorted_nodup; auto.
Qed.
Print Assumptions C15_boundaries_listed_once.

(** the result does not depend on the order in which set.pop returns the nodes *)
Theorem C15_independent_of_set_order : forall pop pop' ps,
  mp_boundaries pop ps = mp_boundaries pop' ps.
Proof.
  intros pop pop' ps.
  destruct (mp_boundaries_reject pop ps) as [A0 [A1 [A2 A3]]].
  destruct (mp_boundaries_reject pop' ps) as [B0 [B1 [B2 B3]]].
  destruct ps as [|p t]; [rewrite A0, B0; auto|].
  set (ps := p :: t) in *; assert (Hne : ps <> []) by discriminate.
  destruct (ListDec.NoDup_dec Z.eq_dec (map p_ID ps)) as [Hd|Hd]; [|rewrite A1, B1; auto].
  destruct (known_neighbours_dec ps Hd) as [Hk|X].
  - destruct (declared_spec ps Hd Hk) as [r [Er Hr]].
    unfold mp_boundaries; unfold ps at 1; unfold ps at 6; fold ps; rewrite Er; cbn [bind]; cbn zeta.
    destruct (guard _ _); cbn [bind]; auto.
    assert (Hb : forall a b, In (a, b) (puniq r) <-> neighbours ps a b)
      by (intros; rewrite puniq_in; apply Hr).
    assert (C : forall pop, length (visit pop (puniq r) (length ps) [] [0%nat]) = length ps <-> connected ps)
      by (intros; apply visit_connected; auto; cbn; lia).
    destruct (Nat.eqb_spec (length (visit pop (puniq r) (length ps) [] [0%nat])) (length ps)) as [E1|E1];
    destruct (Nat.eqb_spec (length (visit pop' (puniq r) (length ps) [] [0%nat])) (length ps)) as [E2|E2]; auto;
    exfalso; [apply E2 | apply E1]; apply C; eapply C; eauto.
  - assert (Hnk : ~ known_neighbours ps).
    { intros Hk; destruct X as [q [n [H1 [H2 H3]]]]; destruct (Hk q n H1 H2) as [z [Hz Ez]].
      apply In_nth_error in Hz; destruct Hz as [i Hi].
      destruct (id_index_spec ps n Hd) as [X _]; assert (id_index ps n = Ok i) by (apply X; eauto); congruence. }
    rewrite A2, B2; auto.
Qed.
Print Assumptions C15_independent_of_set_order.

Theorem C15_rejections : forall pop ps,
  (ps = [] -> mp_boundaries pop ps = Err ValueError) /\
  (ps <> [] -> ~ distinct_ids ps -> mp_boundaries pop ps = Err (Raised DuplicateId)) /\
  (ps <> [] -> distinct_ids ps -> ~ known_neighbours ps -> mp_boundaries pop ps = Err KeyError) /\
  (ps <> [] -> distinct_ids ps -> known_neighbours ps -> ~ connected ps ->
   mp_boundaries pop ps = Err (Raised Disconnected)).
Proof. exact mp_boundaries_reject. Qed.
Print Assumptions C15_rejections.

Example C15_example :
  mp_boundaries (fun _ => 0%nat) demo = Ok [(0, 1); (0, 2); (1, 3); (2, 3)]%nat /\
  mp_boundaries (fun l => length l) demo = Ok [(0, 1); (0, 2); (1, 3); (2, 3)]%nat /\
  mp_boundaries (fun _ => 0%nat) [mkp 1 8 [] 1; mkp 2 8 [] 1] = Err (Raised Disconnected).
Proof. vm_compute; auto. Qed.
Example C15_example_hypotheses : demo <> [] /\ distinct_ids demo /\ known_neighbours demo /\ connected demo.
Proof. apply (mp_boundaries_iff (fun _ => 0%nat)); eexists; vm_compute; reflexivity. Qed.

(* ------------------------------------------------------------------ *)
(** ** C16 *)

(** the weight of a strip boundary is the sum of the weights of the structure
    boundaries joining panels with these two ply counts; no other entry exists *)
Theorem C16_strip_weights_are_sums_partial : forall ps w bs,
  (forall b, In b bs -> (fst b < length ps)%nat /\ (snd b < length ps)%nat) ->
  (forall b, In b bs -> exists x, lookup w b = Ok x) ->
  exists d, strip_weights (ind_panels_guide ps) w bs [] = Ok d /\
    (forall k l, (k < l)%nat -> (l < length (strip_plies ps))%nat ->
      let here := filter (joins ps (nth k (strip_plies ps) 0) (nth l (strip_plies ps) 0)) bs in
      (here = [] -> lookup d (k, l) = Err KeyError) /\
      (here <> [] -> exists x, lookup d (k, l) = Ok x /\ x == sumQ (map (weight_of w) here))%Q) /\
    (forall k l x, lookup d (k, l) = Ok x -> (k < l < length (strip_plies ps))%nat).
Proof. exact strip_weights_spec. Qed.
Print Assumptions C16_strip_weights_are_sums_partial.

Theorem C16_strip_boundaries_partial : forall ps bs,
  (forall b, In b bs -> (fst b < length ps)%nat /\ (snd b < length ps)%nat) ->
  NoDup (strip_boundaries (ind_panels_guide ps) bs []) /\
  forall k l, In (k, l) (strip_boundaries (ind_panels_guide ps) bs []) <->
    (k < l < length (strip_plies ps))%nat /\
    exists b, In b bs /\ joins ps (nth k (strip_plies ps) 0) (nth l (strip_plies ps) 0) b = true.
Proof. exact strip_boundaries_spec. Qed.
Print Assumptions C16_strip_boundaries_partial.

(** the weights of the structure: all one by default *)
Theorem C16_default_weights : forall ps bs, (forall b, In b bs -> (fst b <= snd b)%nat) ->
  exists w, mp_boundary_weights ps bs None = Ok w /\ forall b, In b bs -> lookup w b = Ok 1%Q.
Proof. exact default_weights. Qed.
Print Assumptions C16_default_weights.

(** the user's weights, provided they are keyed by ascending ID pairs *)
Theorem C16_user_weights_partial : forall ps bs u (f : nat * nat -> Q),
  NoDup bs -> (forall b, In b bs -> (fst b <= snd b)%nat) ->
  (forall e, In e u -> 0 <= snd e)%Q -> (length bs <= length u)%nat ->
  (forall b, In b bs -> ~ (f b == 0)%Q /\
     ulookup u (zsort (id_of ps (fst b)) (id_of ps (snd b))) = Some (f b)) ->
  exists w, mp_boundary_weights ps bs (Some u) = Ok w /\ forall b, In b bs -> lookup w b = Ok (f b).
Proof. exact user_weights. Qed.
Print Assumptions C16_user_weights_partial.

Definition demo_bs : list (nat * nat) := [(0, 1); (0, 2); (1, 3); (2, 3)]%nat.
Definition demo_u : udict := [((10, 20), 1%Q); ((10, 30), 2%Q); ((20, 40), 5%Q); ((30, 40), 7%Q)].
Example C16_example : exists w d,
  mp_boundary_weights demo demo_bs (Some demo_u) = Ok w /\
  strip_weights (ind_panels_guide demo) w demo_bs [] = Ok d /\
  strip_boundaries (ind_panels_guide demo) demo_bs [] = [(0, 1); (1, 2)]%nat /\
  lookup d (0, 1)%nat = Ok 6%Q /\ lookup d (1, 2)%nat = Ok 9%Q /\ lookup d (0, 2)%nat = Err KeyError.
Proof. eexists; eexists; repeat split; vm_compute; reflexivity. Qed.

(** weights keyed by descending IDs are accepted (the code has a branch for them) but
    stored under the reversed pair: building the strip then fails *)
Theorem C16_reversed_keys_refuted :
  ~ (forall ps bs u w, mp_boundary_weights ps bs (Some u) = Ok w ->
       (forall b, In b bs -> (fst b < length ps)%nat /\ (snd b < length ps)%nat /\ (fst b <= snd b)%nat) ->
       exists d, strip_weights (ind_panels_guide ps) w bs [] = Ok d).
Proof.
  intros H.
  destruct (H [mkp 1 8 [2] 1; mkp 2 12 [] 1] [(0, 1)]%nat [((2, 1), 3%Q)] [((1, 0)%nat, 3%Q)]) as [d E].
  - vm_compute; reflexivity.
  - intros b [<-|[]]; cbn; lia.
  - vm_compute in E; discriminate.
Qed.
Print Assumptions C16_reversed_keys_refuted.

(** a boundary whose weight is zero counts as missing *)
Theorem C16_zero_weight_raises :
  mp_boundary_weights [mkp 1 8 [2] 1; mkp 2 12 [] 1] [(0, 1)]%nat (Some [((1, 2), 0%Q)]) =
  Err (Raised BadDefinition).
Proof. reflexivity. Qed.
Print Assumptions C16_zero_weight_raises.

(* ------------------------------------------------------------------ *)
(** ** C17 *)

(** correct when the panels are given by strictly increasing thickness *)
Theorem C17_strip_weightings_partial : forall ps k,
  StronglySorted Z.lt (map p_nplies ps) -> (k < length (strip_plies ps))%nat ->
  (nth k (actual_panel_weightings ps) 0 == total_weighting ps (nth k (strip_plies ps) 0%Z))%Q.
Proof. exact actual_weightings_increasing. Qed.
Print Assumptions C17_strip_weightings_partial.

(** whenever two panels are equally thick (and all weightings positive) part of the
    weighting of the structure is ignored *)
Theorem C17_total_weighting_refuted : forall ps,
  (forall p, In p ps -> 0 < p_weighting p)%Q -> ~ NoDup (map p_nplies ps) ->
  (sumQ (actual_panel_weightings ps) < sumQ (map p_weighting ps))%Q.
Proof. exact actual_weightings_lost. Qed.
Print Assumptions C17_total_weighting_refuted.

(** ... and with distinct thicknesses the weightings can be exchanged *)
Theorem C17_swapped_weightings_refuted :
  ~ (forall ps k, NoDup (map p_nplies ps) -> (k < length (strip_plies ps))%nat ->
     (nth k (actual_panel_weightings ps) 0 == total_weighting ps (nth k (strip_plies ps) 0%Z))%Q).
Proof.
  intros H. specialize (H [mkp 1 12 [] 1; mkp 2 20 [] 2; mkp 3 16 [] 4] 1%nat).
  assert (X : NoDup [12; 20; 16]) by (repeat constructor; cbn; intuition lia).
  specialize (H X). cbn in H. specialize (H ltac:(lia)). vm_compute in H. discriminate.
Qed.
Print Assumptions C17_swapped_weightings_refuted.

Example C17_example :
  let ps := [mkp 1 12 [] 1; mkp 2 16 [] 2; mkp 3 20 [] 4] in
  StronglySorted Z.lt (map p_nplies ps) /\ (2 < length (strip_plies ps))%nat /\
  (nth 2 (actual_panel_weightings ps) 0 == 4)%Q.
Proof. cbn zeta; split; [repeat constructor; lia|]; split; [cbn; lia | reflexivity]. Qed.
Example C17_example_lost :
  (sumQ (actual_panel_weightings demo) == 6)%Q /\ (sumQ (map p_weighting demo) == 10)%Q.
Proof. split; reflexivity. Qed.

(* ------------------------------------------------------------------ *)
(** ** C41 *)
Theorem C41_weight_from_table : forall ps sst density,
  (length ps <= length sst)%nat ->
  (forall i p, nth_error ps i = Some p ->
     Z.of_nat (countb (fun x => negb (x =? -1)) (nth i sst [])) = p_nplies p) ->
  exists w, calc_weight_from_sst ps sst density = Ok w /\ (w == calc_weight ps density)%Q.
Proof.
  intros ps sst density L H; apply calc_weight_from_sst_spec; auto.
  intros i Hi; destruct (nth_error ps i) as [p|] eqn:E; [|apply nth_error_None in E; lia].
  rewrite (H i p E); unfold plies_at, n_plies_of; symmetry; apply nth_error_nth; rewrite nth_error_map, E; auto.
Qed.
Print Assumptions C41_weight_from_table.

Theorem C41_weight_is_additive : forall ps qs density,
  (calc_weight (ps ++ qs) density == calc_weight ps density + calc_weight qs density)%Q.
Proof. exact calc_weight_app. Qed.
Print Assumptions C41_weight_is_additive.

Theorem C41_weight_is_sum_of_panels : forall ps density,
  (sumQ (calc_weight_per_panel ps density) == calc_weight ps density)%Q /\
  forall i p, nth_error ps i = Some p ->
    nth_error (calc_weight_per_panel ps density) i =
    Some (density * (p_area p * inject_Z (p_nplies p)))%Q.
Proof.
  intros ps density; split; [apply calc_weight_per_panel_sum|].
  intros i p E; unfold calc_weight_per_panel; rewrite nth_error_map, E; auto.
Qed.
Print Assumptions C41_weight_is_sum_of_panels.

Example C41_example :
  exists w, calc_weight_from_sst [mkp 1 2 [] 1; mkp 2 3 [] 1] [[45; -1; 0]; [45; 90; 0]] (1 # 2) = Ok w /\
    (w == 5)%Q.
Proof. eexists; split; [reflexivity | vm_compute; reflexivity]. Qed.

(* ------------------------------------------------------------------ *)
(** ** C43: strip ply counts of one parity (symmetric laminates) or any (others) *)
Section C43.
Variables (sym : bool) (plies : list Z) (ref : nat).
Hypothesis Hs : StronglySorted Z.lt plies.
Hypothesis Href : (ref < length plies)%nat.
Hypothesis Hpar : sym = true -> forall i, (i < length plies)%nat ->
  Z.even (nth i plies 0) = Z.even (nth ref plies 0).
Let d := if sym then 2 else 1.
Let nref := nth ref plies 0.

(** row k of the thick-to-thin table removes the k-th ply (pair) of the reference
    panel; the panel it names is the thickest one that is thinner than the laminate
    before the step, hence still to be reached; a new panel is announced exactly when
    the laminate before the step is the next thicker panel of the strip *)
Theorem C43_thick_to_thin_table_partial :
  (ref = 0%nat -> thin_table sym plies ref = Ok None) /\
  ((0 < ref)%nat -> exists t, thin_table sym plies ref = Ok (Some t) /\
     nref - nth 0 plies 0 = d * zlen t /\
     (forall k, (k < length t)%nat -> exists r i, nth_error t k = Some r /\
        s_before r = nref - d * Z.of_nat k /\ s_after r = s_before r - d /\
        (i < ref)%nat /\ s_panel r = Z.of_nat i /\ s_panel_plies r = nth i plies 0 /\
        nth i plies 0 <= s_after r /\ s_before r <= nth (S i) plies 0 /\
        (s_new r = true <-> s_before r = nth (S i) plies 0) /\
        s_designed r = Z.of_nat (ref - 1 - i)) /\
     (forall i, (i < ref)%nat -> exists! k, exists r,
        nth_error t k = Some r /\ s_new r = true /\ s_panel r = Z.of_nat i)).
Proof.
  destruct (thin_table_spec sym plies ref Hs Href Hpar) as [H1 H2]; split; auto.
  intros H; destruct (H2 H) as [t [E [L R]]]; exists t; split; auto; split; auto; split.
  - intros k Hk; destruct (R k Hk) as [r [Er [i [I1 [I2 [I3 [I4 [I5 [I6 [I7 [I8 I9]]]]]]]]]]].
    exists r, i; split; auto; split; auto; split; auto; split; auto; split; auto; split; auto.
  - apply (thin_once sym plies ref Hs Href Hpar t E).
Qed.

Theorem C43_thin_to_thick_table_partial :
  (S ref = length plies -> thick_table sym plies ref = Ok None) /\
  ((S ref < length plies)%nat -> exists t, thick_table sym plies ref = Ok (Some t) /\
     last plies 0 - nref = d * zlen t /\
     (forall k, (k < length t)%nat -> exists r i, nth_error t k = Some r /\
        s_before r = nref + d * Z.of_nat k /\ s_after r = s_before r + d /\
        (ref <= i)%nat /\ (S i < length plies)%nat /\
        s_panel r = Z.of_nat (S i) /\ s_panel_plies r = nth (S i) plies 0 /\
        s_after r <= nth (S i) plies 0 /\ nth i plies 0 <= s_before r /\
        (s_new r = true <-> s_before r = nth i plies 0) /\
        s_designed r = Z.of_nat (i - ref)) /\
     (forall i, (ref < i < length plies)%nat -> exists! k, exists r,
        nth_error t k = Some r /\ s_new r = true /\ s_panel r = Z.of_nat i)).
Proof.
  destruct (thick_table_spec sym plies ref Hs Href Hpar) as [H1 H2]; split; auto.
  intros H; destruct (H2 H) as [t [E [L R]]]; exists t; split; auto; split; auto; split.
  - intros k Hk; destruct (R k Hk) as [r [Er [i [I0 [I1 [I2 [I3 [I4 [I5 [I6 [I7 [I8 I9]]]]]]]]]]]].
    exists r, i; split; auto; split; auto; split; auto; split; auto; split; auto; split; auto.
  - apply (thick_once sym plies ref Hs Href Hpar t E).
Qed.
End C43.
Print Assumptions C43_thick_to_thin_table_partial.
Print Assumptions C43_thin_to_thick_table_partial.

Example C43_example :
  StronglySorted Z.lt [8; 12; 14; 20] /\
  exists a b c t1 t2, thin_table true [8; 12; 14; 20] 2 = Ok (Some [a; b; c]) /\
    (s_panel a, s_before a, s_after a, s_new a) = (1, 14, 12, true) /\
    (s_panel b, s_before b, s_after b, s_new b) = (0, 12, 10, true) /\
    (s_panel c, s_before c, s_after c, s_new c) = (0, 10, 8, false) /\
    thick_table true [8; 12; 14; 20] 2 = Ok (Some (t1 :: t2)) /\ length t2 = 2%nat /\ s_panel t1 = 3.
Proof.
  split; [repeat constructor; lia|].
  do 5 eexists; repeat split; vm_compute; reflexivity.
Qed.

(** a symmetric structure whose thickest panel alone has a middle ply passes the check
    of the middle plies, but the table then names a panel that the laminate has already
    become thinner than, and never announces the thinnest panel *)
Theorem C43_mixed_parity_refuted :
  middle_check false [10; 12; 13] = Ok tt /\
  exists r, thin_table true [10; 12; 13] 2 = Ok (Some [r]) /\
    s_panel r = 1 /\ s_panel_plies r = 12 /\ s_after r = 11.
Proof. split; [reflexivity|]; eexists; repeat split; vm_compute; reflexivity. Qed.
Print Assumptions C43_mixed_parity_refuted.

(* ------------------------------------------------------------------ *)
(** ** C45: weightings used while the ply drops are re-designed *)
Theorem C45_thick_to_thin_weightings : forall w ref k,
  (k < ref <= length w)%nat -> ~ (sumQ (firstn ref w) == 0)%Q ->
  let v := weightings_thin w ref k in
  length v = (ref - k)%nat /\ (sumQ v == 1)%Q /\
  (nth 0 v 0 == sumQ (firstn (S k) w) / sumQ (firstn ref w))%Q /\
  forall j, (0 < j < ref - k)%nat -> (nth j v 0 == nth (k + j) w 0 / sumQ (firstn ref w))%Q.
Proof. exact weightings_thin_spec. Qed.
Print Assumptions C45_thick_to_thin_weightings.

Theorem C45_thin_to_thick_weightings : forall w ref k,
  (ref < k < length w)%nat -> ~ (sumQ (skipn (S ref) w) == 0)%Q ->
  let v := weightings_thick w ref k in
  length v = (k - ref)%nat /\ (sumQ v == 1)%Q /\
  (nth (k - ref - 1) v 0 == sumQ (skipn k w) / sumQ (skipn (S ref) w))%Q /\
  forall j, (j < k - ref - 1)%nat -> (nth j v 0 == nth (S ref + j) w 0 / sumQ (skipn (S ref) w))%Q.
Proof. exact weightings_thick_spec. Qed.
Print Assumptions C45_thin_to_thick_weightings.

Example C45_example :
  ~ (sumQ (firstn 3 [1; 2; 5; 4]) == 0)%Q /\
  map Qred (weightings_thin [1; 2; 5; 4]%Q 3 1) = [3 # 8; 5 # 8] /\
  map Qred (weightings_thick [1; 2; 5; 4]%Q 0 2) = [2 # 11; 9 # 11].
Proof. vm_compute; repeat split; discriminate. Qed.
