(* Properties_guide.v - C81: the designs found by the search, before the repair. *)
From Coq Require Import Lqa.
From Verif Require Import Base Constraints Guidelines SpecGuidelines GuidelinesProofs ConstraintsProofs GateProofs Strip Search
  Pruning PruningProofs Properties_pruning Moments MomentsProofs Beam BeamProofs Properties_beam Properties_redesign Properties_repairmp RepairMp SpecRedesign Properties_guidelines Properties_flexural Final Properties_final Objectives Stiffness Levels Properties_levels Pipeline Properties_pipeline.
Local Open Scope Z_scope.

Lemma reached a b pdl pb t : well_given a b -> layout_given (b_cons b) (b_plies b) (b_ref b) pdl ->
  search_problem b pdl = Ok pb -> beam pb (levels b) = Ok t ->
  forall d, In d (t_ss t) -> exists h, reach pb (levels b) h /\ d = ss_of pb (levels b) h.
Proof.
  intros W G E X. destruct (search_set_up a b pdl pb W (g_rows _ _ _ _ G) E) as [tables U]. pose proof (g_rows _ _ _ _ G) as Gr.
  assert (Lp : length (p_pdl pb) = length (b_plies b)) by (rewrite (u_rows _ _ _ _ U), map_length; exact Gr).
  assert (Lm : length (p_mat pb) = length (b_plies b)) by apply U.
  destruct (levels_facts a b W) as (_ & Ne & _).
  assert (B : forall l1 l l2 h, levels b = l1 ++ l :: l2 -> reach pb (l1 ++ [l]) h -> (-6666 < score_of pb (last (levels b) 0%nat) (l1 ++ [l]) l h < 6666)%Q).
  { intros l1 l l2 h Hl _. pose proof (C84_score_range a b pdl pb W G E l1 l l2 h Hl) as S. unfold score_of. rewrite node_lampams_nth. unfold node_lampams in S. rewrite node_lampams_nth in S. lra. }
  assert (L : length (p_pdl pb) = length (p_mat pb)) by lia.
  destruct (beam_reach_ok pb (levels b) t L (fun l1 l l2 h P R => proj1 (B l1 l l2 h P R)) (fun l1 l l2 h P R => proj2 (B l1 l l2 h P R)) X Ne) as (hs & (E1 & _) & R & _).
  intros d Hd. rewrite E1 in Hd. apply in_map_iff in Hd. destruct Hd as [h [<- Hh]]. exists h; auto.
Qed.

(** In a symmetric structure, every design found by the search (before the repair) gives the
    thickest panel a stack that respects damage tolerance, disorientation and contiguity, and a
    middle ply at 0 or 90 *)
Theorem C81_search_guidelines : forall a b pdl pb t, well_given a b -> layout_given (b_cons b) (b_plies b) (b_ref b) pdl ->
  let c := b_cons b in let n := last (b_plies b) 0 in
  Forall (fun x => 0 <= x) (last pdl []) -> sym c = true -> 0 <= delta_angle c -> 5 <= n -> (contig c = true -> 2 * Z.of_nat (n_contig c) < n) ->
  search_problem b pdl = Ok pb -> beam pb (levels b) = Ok t ->
  forall d, In d (t_ss t) -> exists s, joined c (panel_of c n) (last d ([], [])) s /\ guidelines c s /\
    (Z.odd n = true -> nth (Z.to_nat (n / 2)) s 1 = 0 \/ nth (Z.to_nat (n / 2)) s 1 = 90).
Proof.
  intros a b pdl pb t W G c n K Hs Hdl H5 Hc E X d Hd.
  destruct (reached a b pdl pb t W G E X d Hd) as [h [R ->]].
  destruct (search_set_up a b pdl pb W (g_rows _ _ _ _ G) E) as [tables U]. pose proof (g_rows _ _ _ _ G) as Gr.
  assert (Lp : length (p_pdl pb) = length (b_plies b)) by (rewrite (u_rows _ _ _ _ U), map_length; exact Gr).
  assert (Lm : length (p_mat pb) = length (b_plies b)) by apply U.
  pose proof (w_ref a b W) as Hr. pose proof (mk_cons_consistent _ _ (w_cons a b W)) as KC.
  assert (F : p_cons pb = c /\ p_n pb = length (levels b) /\ p_thick pb = (length (b_plies b) - 1)%nat /\ p_middle pb = existsb f_middle (final_panels b)).
  { clear - E. unfold search_problem in E. destruct (mapM _ _); cbn [bind] in E; [|discriminate]. destruct (mapM _ _); cbn [bind] in E; [|discriminate].
    unfold guard in E. destruct (negb _); cbn [bind] in E; [discriminate|]. injection E as <-. auto. }
  destruct F as (F1 & F2 & F3 & F4). destruct (n_thick a b W) as [T3 Tn]. fold n in Tn.
  assert (Lv : levels b = seq 0 (n_half (n_thickest b))) by (unfold levels, ply_order; fold c; rewrite Hs; reflexivity).
  assert (Ln : length (levels b) = n_half (n_thickest b)) by (rewrite Lv; apply seq_length).
  pose proof (n_half_spec (n_thickest b)) as [Hh1 Hh2].
  assert (M : p_middle pb = Z.odd n).
  { rewrite F4. pose proof (w_parity a b W Hs) as P. destruct (Z.odd n) eqn:On.
    - apply existsb_exists. exists (panel_of c n). split; [|cbn; rewrite Hs, On; reflexivity]. unfold final_panels. apply in_map.
      unfold n; rewrite last_is_nth. apply nth_In; lia.
    - apply not_true_iff_false. intros Y. apply existsb_exists in Y. destruct Y as [p [Y1 Y2]]. unfold final_panels in Y1. apply in_map_iff in Y1. destruct Y1 as [m [<- Im]].
      cbn in Y2. apply andb_true_iff in Y2. destruct Y2 as [_ Y2]. apply (In_nth _ _ 0) in Im. destruct Im as [i [Hi <-]].
      pose proof (P i Hi) as P1. pose proof (P (length (b_plies b) - 1)%nat ltac:(lia)) as P2. rewrite <- last_is_nth in P2. fold n in P2.
      rewrite <- (Z.negb_odd (nth i (b_plies b) 0)), Y2 in P1. rewrite <- (Z.negb_odd n), On in P2. cbn in P1, P2. congruence. }
  assert (Rr : nth (p_thick pb) (p_pdl pb) [] = firstn (length (levels b)) (last pdl [])).
  { rewrite F3, (u_rows _ _ _ _ U). rewrite (nth_map' (firstn (length (levels b))) pdl _ []) by lia. rewrite last_is_nth. rewrite Gr. reflexivity. }
  assert (Lr : length (last pdl []) = n_thickest b).
  { assert (I : In (last pdl []) pdl) by (rewrite last_is_nth; apply nth_In; lia). pose proof (g_width _ _ _ _ G _ I) as Gw. fold n in Gw. unfold zlen in Gw. lia. }
  assert (Hrow : forall l, (l < p_n pb)%nat -> 0 <= nth l (nth (p_thick pb) (p_pdl pb) []) (-1)).
  { intros l Hl. rewrite Rr. rewrite nth_firstn by lia. rewrite Forall_forall in K. apply K, nth_In. lia. }
  pose proof (k_set c KC) as (ND & Fa & _).
  assert (Hne : set_of_angles (p_cons pb) <> []).
  { rewrite F1. destruct (k_set c KC) as (_ & _ & _ & [x [Ix _]] & _). intros N; rewrite N in Ix; destruct Ix. }
  assert (Hset : Forall angle_ok (set_of_angles (p_cons pb))) by (rewrite F1; exact Fa).
  assert (Hct : contig (p_cons pb) = true -> (2 <= n_contig (p_cons pb) <= 6)%nat /\ (n_contig (p_cons pb) < p_n pb)%nat).
  { rewrite F1; intros Y. split; [apply (w_contig a b W Y)|]. specialize (Hc Y). lia. }
  assert (Hs' : sym (p_cons pb) = true) by (rewrite F1; exact Hs).
  assert (Ht : (p_thick pb < length (p_pdl pb))%nat) by lia.
  assert (R' : reach pb (seq 0 (p_n pb)) h) by (rewrite F2, Ln, <- Lv; exact R).
  destruct (reach_admissible pb (p_n pb) h Hs' ltac:(lia) Ht Hrow Hne Hset ltac:(lia) Hct (le_n _) R') as [Ah Ad].
  rewrite F1, M in Ad. pose proof (reach_length _ _ _ R) as Lh.
  assert (Eg : last (ss_of pb (levels b) h) ([], []) = (h, [])).
  { pose proof (guide_sym pb (levels b) h Hs' ltac:(lia) Ht) as Y. unfold guide in Y. rewrite last_is_nth.
    assert (Ls : length (ss_of pb (levels b) h) = length (b_plies b)) by (unfold ss_of; rewrite map_length, combine_length; lia).
    rewrite Ls, <- F3. apply Y; [|exact Lh]. intros l Hl. apply Hrow. rewrite Lv in Hl. apply in_seq in Hl. lia. }
  rewrite Eg. cbn [fst snd].
  assert (On : Nat.odd (n_thickest b) = Z.odd n).
  { rewrite <- Tn. clear. rewrite <- Nat.negb_even. rewrite <- Z.negb_even. f_equal. apply eq_true_iff_eq. rewrite Nat.even_spec, Z.even_spec. split.
    - intros [k ->]. exists (Z.of_nat k). lia.
    - intros [k Hk]. exists (Z.to_nat k). lia. }
  destruct (Z.odd n) eqn:Odd.
  - destruct (n_half_odd (n_thickest b) On) as [O1 O2].
    assert (Hh : h <> []) by (intros N; rewrite N in Lh; cbn in Lh; lia). destruct (exists_last Hh) as [l [m Eh]].
    assert (Ll : length h = (length l + 1)%nat) by (rewrite Eh, app_length; reflexivity).
    exists (l ++ m :: rev l). assert (Lz : length (l ++ m :: rev l) = n_thickest b) by (rewrite app_length; cbn [length]; rewrite rev_length; lia).
    split; [|split].
    + repeat split; cbn [panel_of f_plies f_middle fst snd].
      * unfold zlen; lia.
      * congruence.
      * rewrite Hs, Odd; discriminate.
      * intros _ _. exists l, m. auto.
    + apply (stack_guidelines c (p_n pb) true h (l ++ m :: rev l)); auto; try lia.
      * rewrite rev_app_distr; cbn [rev]. rewrite rev_involutive, <- app_assoc. reflexivity.
      * rewrite Lz; lia.
      * rewrite F2, <- Lh, Eh. replace (l ++ m :: rev l) with ((l ++ [m]) ++ rev l) by (rewrite <- app_assoc; reflexivity). rewrite firstn_app, firstn_all, Nat.sub_diag. cbn. apply app_nil_r.
      * rewrite Lz; auto.
    + intros _. destruct (Ad (p_n pb - 1)%nat ltac:(lia)) as [_ Y]. specialize (Y ltac:(lia) eq_refl).
      assert (D : Z.to_nat (n / 2) = length l).
      { apply Z.odd_spec in Odd. destruct Odd as [k Hk]. rewrite Hk. replace (2 * k + 1) with (1 + k * 2) by ring. rewrite Z.div_add by lia. cbn. lia. }
      rewrite D, app_nth2, Nat.sub_diag by lia. cbn [nth]. rewrite Eh, app_nth2 in Y by lia. replace (p_n pb - 1 - length l)%nat with 0%nat in Y by lia. exact Y.
  - assert (Ev : n_thickest b = (2 * n_half (n_thickest b))%nat).
    { destruct Hh1 as [|Hh1]; [assumption|]. exfalso. assert (Y : Nat.odd (n_thickest b) = true); [|congruence]. apply Nat.odd_spec. exists (n_half (n_thickest b) - 1)%nat. lia. }
    exists (h ++ rev h). assert (Lz : length (h ++ rev h) = n_thickest b) by (rewrite app_length, rev_length; lia).
    split; [|split; [|discriminate]].
    + repeat split; cbn [panel_of f_plies f_middle fst snd].
      * unfold zlen; lia.
      * congruence.
      * rewrite Hs, Odd; discriminate.
    + apply (stack_guidelines c (p_n pb) false h (h ++ rev h)); auto; try lia.
      * rewrite rev_app_distr, rev_involutive. reflexivity.
      * rewrite Lz; lia.
      * rewrite F2, <- Lh. rewrite firstn_app, firstn_all, Nat.sub_diag. cbn. apply app_nil_r.
      * rewrite Lz; auto.
Qed.
Print Assumptions C81_search_guidelines.

(** hypotheses of [C81_search_guidelines], with a middle ply *)
Definition layout_odd : list (list Z) := [[1; -1; 2; 3; -1; 4; 5; 4; -1; 3; 2; -1; 1]; [1; 2; 3; 4; 5; 6; 7; 6; 5; 4; 3; 2; 1]].
Example C81_search_example : exists c pb t, well_given args_full (bella_ex c [9; 13] 0) /\ layout_given c [9; 13] 0 layout_odd /\
  Forall (fun x => 0 <= x) (last layout_odd []) /\ sym c = true /\ dam_tol c = true /\ diso c = true /\ contig c = true /\ 2 * Z.of_nat (n_contig c) < 13 /\ 0 <= delta_angle c /\
  search_problem (bella_ex c [9; 13] 0) layout_odd = Ok pb /\ beam pb (levels (bella_ex c [9; 13] 0)) = Ok t /\ length (t_ss t) = 2%nat.
Proof.
  destruct (mk_cons args_full) as [c|] eqn:E; [|vm_compute in E; discriminate]. exists c.
  assert (W : well_given args_full (bella_ex c [9; 13] 0)).
  { pose proof E as E'. vm_compute in E'. injection E' as <-. constructor; try reflexivity; try exact E; cbn [bella_ex bella_on b_cons b_plies b_ref b_targets b_weights b_panel_weightings].
    - cbn; intuition discriminate.
    - repeat constructor.
    - repeat constructor; discriminate.
    - cbn; lia.
    - intros _ [|[|i]] Hi; try reflexivity. cbn in Hi. lia.
    - repeat constructor; discriminate.
    - constructor; [w12|]. constructor; [w12|constructor].
    - split; [repeat constructor; discriminate|reflexivity].
    - intros _. cbn. split; [lia|reflexivity].
    - left; reflexivity.
    - intros x i. apply cos_sin_4_bound. }
  assert (X : exists pb t, search_problem (bella_ex c [9; 13] 0) layout_odd = Ok pb /\ beam pb (levels (bella_ex c [9; 13] 0)) = Ok t /\ length (t_ss t) = 2%nat).
  { assert (Y : (do c <- mk_cons args_full; do pb <- search_problem (bella_ex c [9; 13] 0) layout_odd; do t <- beam pb (levels (bella_ex c [9; 13] 0)); Ok (length (t_ss t))) = Ok 2%nat) by (vm_compute; reflexivity).
    rewrite E in Y. cbn [bind] in Y. destruct (search_problem (bella_ex c [9; 13] 0) layout_odd) as [pb|]; [|discriminate]. cbn [bind] in Y.
    destruct (beam pb (levels (bella_ex c [9; 13] 0))) as [t|] eqn:B; [|discriminate]. cbn [bind] in Y. exists pb, t. split; [reflexivity|]. split; [exact B|]. congruence. }
  destruct X as (pb & t & X1 & X2 & X3). exists pb, t. split; [exact W|]. split.
  { constructor; [reflexivity|intros r [<-|[<-|[]]]; reflexivity|unfold dropped; cbn; lia|reflexivity|intros _ [|[|i]] Hi; try reflexivity; cbn in Hi; lia]. }
  split; [repeat constructor; discriminate|]. clear W. repeat apply conj; try exact X1; try exact X2; try exact X3; clear X1 X2 X3; vm_compute in E; injection E as <-; try reflexivity; cbn; lia.
Qed.
