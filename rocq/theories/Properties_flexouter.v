(* Properties_flexouter.v - C36: the protected plies of an asymmetric laminate. *)
From Coq Require Import Lqa.
From Verif Require Import Base Uniq Constraints Guidelines SpecGuidelines GuidelinesProofs ConstraintsProofs Divide DivideProofs Moments MomentsProofs
  Search SearchProofs Membrane MembraneProofs Properties_guidelines Properties_beam Properties_repair10 Properties_repairdiso Properties_membrane Flexural FlexuralProofs FlexuralSwap Properties_flexural.
Local Open Scope Z_scope.

(* ------------------------------------------------------------------ *)
(** ** C36: the protected plies of an asymmetric laminate *)
Lemma read_dist ss od : forall start id size b, In b (read_blocks ss od id size start) -> b_dist b = block_dist (length ss) (b_first b) (b_size b).
Proof.
  induction start as [|p IH]; intros id size b H; cbn [read_blocks] in H.
  - destruct H as [<-|[]]. reflexivity.
  - destruct (nth (S p) ss 0 =? nth p ss 0); [apply (IH _ _ _ H)|]. destruct H as [<-|H]; [reflexivity|apply (IH _ _ _ H)].
Qed.
Lemma dist_inside n nf f s : (1 <= s)%nat -> (nf <= f)%nat -> (f + s + nf <= n)%nat -> block_dist n f s <= Z.of_nat n - 2 * Z.of_nat nf.
Proof.
  intros H1 H2 H3. unfold block_dist. apply Z.max_lub.
  - destruct (Z.ltb_spec (2 * Z.of_nat f) (Z.of_nat n)); lia.
  - destruct (Z.ltb_spec (2 * (Z.of_nat f + Z.of_nat s - 1)) (Z.of_nat n)); lia.
Qed.
Lemma dist_outside n nf f s : (1 <= s)%nat -> (f + s <= n)%nat -> (2 * nf < n)%nat -> (f < nf \/ n - nf <= f)%nat -> Z.of_nat n - 2 * Z.of_nat nf < block_dist n f s.
Proof.
  intros H1 H2 H3 H4. unfold block_dist. destruct H4.
  - eapply Z.lt_le_trans; [|apply Z.le_max_l]. destruct (Z.ltb_spec (2 * Z.of_nat f) (Z.of_nat n)); lia.
  - eapply Z.lt_le_trans; [|apply Z.le_max_r]. destruct (Z.ltb_spec (2 * (Z.of_nat f + Z.of_nat s - 1)) (Z.of_nat n)); lia.
Qed.

Section Outer.
Variable c : cons.
Variable t0 : list Z.
Hypothesis Y : sym c = false.
Variable l0 : list block.
Hypothesis L0 : find_list_blocks c t0 = Ok l0.
Notation np := (length t0).
Notation nf := (n_fixed c).
(** the ply next to the protected plies at the bottom is different *)
Hypothesis Cut : nth (np - nf - 1) t0 0 <> nth (np - nf) t0 0.
Let Pal : sym c = true -> t0 = rev t0. Proof. congruence. Qed.

Lemma l0_dist b : In b l0 -> b_dist b = block_dist np (b_first b) (b_size b).
Proof.
  pose proof L0 as H. unfold find_list_blocks in H. destruct (block_start c t0) as [p|]; [|discriminate]. cbn [bind] in H. injection H as <-.
  intros I. apply (Permutation_in _ (sort_perm _)) in I. apply (read_dist _ _ _ _ _ _ I).
Qed.
Lemma l0_cut b : In b l0 -> (b_first b <= np - nf - 1)%nat -> (2 * nf < np)%nat -> (b_first b + b_size b <= np - nf)%nat.
Proof.
  intros I Hf H2. destruct (blocks_start c t0 Pal l0 L0) as (G & Fi & _). destruct (le_lt_dec (b_first b + b_size b) (np - nf)) as [L|L]; [exact L|exfalso].
  apply Cut. rewrite (proj1 (Fi b I (np - nf - 1)%nat ltac:(lia))), (proj1 (Fi b I (np - nf)%nat ltac:(lia))). reflexivity.
Qed.
Lemma outer_kept cos_sin coeffs target midply is lp obj r : (2 * nf < np)%nat ->
  swap_loop c cos_sin coeffs target midply is l0 lp obj t0 = Ok r ->
  forall i, (i < np)%nat -> (i < nf \/ np - nf <= i)%nat -> nth i r 0 = nth i t0 0.
Proof.
  intros H2 H. 
  destruct (swap_inv c cos_sin coeffs target midply (fun l ss => good_swap c t0 l0 l ss /\
     forall i, (i < np)%nat -> (i < nf \/ np - nf <= i)%nat -> nth i ss 0 = nth i t0 0)) with (is := is) (l := l0) (lp := lp) (obj := obj) (ss := t0) (r := r) as [l' [_ W]];
    [| |exact H|exact W].
  - intros l ss i1 i2 [W O] C. split; [apply good_swap_step; assumption|]. intros i Hi Ho.
    destruct C as (Hi12 & St & Sz & _). pose proof (Permutation_length (w_perm _ _ _ _ _ W)) as L. rewrite L in St.
    set (b1 := nth i1 l no_block) in *. set (b2 := nth i2 l no_block) in *.
    assert (I1 : In b1 l) by (apply nth_In; lia). assert (I2 : In b2 l) by (apply nth_In; lia).
    pose proof (w_geo _ _ _ _ _ W) as G. pose proof (g_in _ _ _ G b1 I1) as [S1 B1]. pose proof (g_in _ _ _ G b2 I2) as [S2 B2].
    pose proof (g_sorted _ _ _ G i1 i2 ltac:(lia)) as Sd. fold b1 b2 in Sd.
    assert (Gm : forall b, In b l -> exists b', In b' l0 /\ geom b' = geom b).
    { intros b Hb. apply (in_map geom) in Hb. rewrite (w_geom _ _ _ _ _ W) in Hb. apply in_map_iff in Hb. destruct Hb as (b' & E & Hb'). eauto. }
    destruct (Gm b1 I1) as (x1 & X1 & E1). destruct (Gm b2 I2) as (x2 & X2 & E2). apply geom_eq in E1, E2. destruct E1 as (_ & A1 & A2 & A3), E2 as (_ & A4 & A5 & A6).
    rewrite <- A3, <- A6, (l0_dist x1 X1), (l0_dist x2 X2), A1, A2, A4, A5 in Sd.
    pose proof (l0_cut x1 X1) as C1. pose proof (l0_cut x2 X2) as C2. rewrite A1, A2 in C1. rewrite A4, A5 in C2.
    unfold status_dam_tol in St. apply orb_false_elim in St. destruct St as [St1 St2]. apply Nat.ltb_ge in St1.
    replace (Nat.leb nf np) with true in St2 by (symmetry; apply Nat.leb_le; lia). rewrite andb_true_r in St2. apply Nat.ltb_ge in St2.
    specialize (C1 St2 H2). unfold region in B1, B2. rewrite Y in B1, B2.
    pose proof (dist_inside np nf (b_first b1) (b_size b1) S1 St1 ltac:(lia)) as D1.
    assert (Q2 : (nf <= b_first b2 /\ b_first b2 + b_size b2 <= np - nf)%nat).
    { destruct (le_lt_dec nf (b_first b2)) as [U|U].
      - split; [exact U|]. destruct (le_lt_dec (b_first b2) (np - nf - 1)) as [V|V]; [apply C2; assumption|].
        pose proof (dist_outside np nf (b_first b2) (b_size b2) S2 B2 H2 ltac:(right; lia)). lia.
      - pose proof (dist_outside np nf (b_first b2) (b_size b2) S2 B2 H2 ltac:(left; lia)). lia. }
    rewrite (nth_swap_low c); unfold region; rewrite ?Y, ?L; try assumption.
    assert (F1 : inb b1 i = false) by (apply inb_false; lia). assert (F2 : inb b2 i = false) by (apply inb_false; lia). rewrite F1, F2. apply O; assumption.
  - split; [apply good_swap_0; assumption|]. intros; reflexivity.
Qed.
End Outer.

(** In an asymmetric laminate a round of the refinement keeps the protected plies when the ply
    next to those at the bottom has another angle (without this: C36_flexural_outer_refuted) *)
Theorem C36_flexural_outer : forall c cos_sin coeffs target multi switch n_D2 t t',
  sym c = false -> (2 * n_protected c < length t)%nat -> nth (length t - n_protected c - 1) t 0 <> nth (length t - n_protected c) t 0 ->
  (forall u, Permutation u t -> oop_objective cos_sin coeffs target u <= 10000000000)%Q ->
  repair_flexural c cos_sin coeffs target multi switch n_D2 1 t = Ok t' ->
  Permutation t' t /\ forall i, (i < length t)%nat -> (i < n_protected c \/ length t - n_protected c <= i)%nat -> nth i t' 0 = nth i t 0.
Proof.
  intros c cs co ta multi sw n_D2 t t' Y H2 Cut B H. rewrite <- (fixed_spec c) in *.
  assert (P : sym c = true -> t = rev t) by congruence.
  unfold repair_flexural in H. destruct (sw && _)%bool; [|injection H as <-; auto]. cbn [flexural_loop] in H.
  match type of H with bind ?x _ = _ => destruct x as [s|] eqn:E; [|discriminate] end. cbn [bind] in H. injection H as <-.
  destruct (diso c || contig c)%bool eqn:D.
  2: { apply C36_flexural_shift in E; [|exact P|apply B, Permutation_refl]. destruct E as [[R1 R2 _] _]. rewrite <- fixed_spec in R2. split; [exact R1|]. intros i Hi Ho. apply R2; [exact Hi|lia]. }
  destruct (repair_flexural_1 c cs co ta t) as [s1|] eqn:E1; [|discriminate]. cbn [bind] in E.
  destruct (between c multi s1) as [[]|]; [|discriminate]. cbn [bind] in E.
  destruct (C36_flexural_swap _ _ _ _ _ _ P E1) as [Pm1 _].
  assert (K1 : forall i, (i < length t)%nat -> (i < n_fixed c \/ length t - n_fixed c <= i)%nat -> nth i s1 0 = nth i t 0).
  { unfold repair_flexural_1 in E1. destruct (known _ _); [|discriminate]. destruct (find_list_blocks c t) as [l0|] eqn:El; [|discriminate]. cbn [bind] in E1.
    eapply outer_kept; eauto. }
  apply C36_flexural_shift in E; [|congruence|apply B, Pm1]. destruct E as [[R1 R2 _] _]. rewrite <- fixed_spec in R2.
  pose proof (Permutation_length Pm1) as L1. split; [rewrite R1; exact Pm1|].
  intros i Hi Ho. rewrite <- K1 by assumption. apply R2; rewrite ?L1; [exact Hi|lia].
Qed.
Print Assumptions C36_flexural_outer.
Example C36_flexural_outer_example : exists c, mk_cons (args_rd false true false 1 2) = Ok c /\ sym c = false /\
  let t := [-45; 90; -45; -45; 0; 0; 90; 45; 0] in (2 * n_protected c < length t)%nat /\ nth (length t - n_protected c - 1) t 0 <> nth (length t - n_protected c) t 0 /\
  (diso c || contig c)%bool = true /\
  exists t', repair_flexural c cos_sin_4 (weight 0) (weights [158 # 729; -413 # 729; -227 # 729; 0]%Q) true true 10 1 t = Ok t' /\ t' <> t.
Proof.
  destruct (mk_cons (args_rd false true false 1 2)) as [c|] eqn:E; [|vm_compute in E; discriminate]. exists c. vm_compute in E. injection E as <-.
  split; [reflexivity|]. split; [reflexivity|]. split; [vm_compute; lia|]. split; [vm_compute; discriminate|]. split; [reflexivity|].
  eexists. split; [vm_compute; reflexivity|discriminate].
Qed.
