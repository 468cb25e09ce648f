(* Properties_leaf.v - C84: the nodes of the last level of the beam search. *)
From Coq Require Import Lqa Setoid.
From Verif Require Import Base Uniq Constraints Guidelines SpecGuidelines Spacing Strip Format Search Objectives Membrane SpecRedesign RepairMp Properties_repairmp Properties_membrane Properties_flexural Properties_redesign
  Moments MomentsProofs Properties_moments FormatProofs Beam BeamProofs Final Properties_final ObjectivesProofs Properties_objectives Levels LampamBound Properties_levels Pipeline Properties_pipeline.
Local Open Scope Z_scope.

Lemma misfit_ext w w' t x x' : (forall k, (k < 12)%nat -> nth k w 0 == nth k w' 0)%Q -> (forall k, (k < 12)%nat -> x k == x' k)%Q -> (misfit w t x == misfit w' t x')%Q.
Proof. intros W X. unfold misfit. apply sum_to_ext. intros k Hk. rewrite (W k Hk), (X k Hk). reflexivity. Qed.

(** Symmetric laminates: the objective of a complete design of the search is the weighted
    distance, with the weightings of the panels themselves, of the lamination parameters of the
    laminates that it stands for *)
Theorem C84_leaf_score_partial : forall a b pdl pb h,
  well_given a b -> sym (b_cons b) = true -> layout_given (b_cons b) (b_plies b) (b_ref b) pdl ->
  (forall r x, In r pdl -> In x r -> -1 <= x) ->
  (forall i, (i < length (b_plies b))%nat -> countb kept (firstn (length (levels b)) (nth i pdl [])) = n_half (Z.to_nat (nth i (b_plies b) 0))) ->
  search_problem b pdl = Ok pb -> length h = length (levels b) ->
  exists stacks, length stacks = length (b_plies b) /\
    (forall i, (i < length (b_plies b))%nat -> let s := nth i stacks [] in
       zlen s = nth i (b_plies b) 0 /\ palindrome s /\
       firstn (n_half (length s)) s = selected h (firstn (length (levels b)) (nth i pdl []))) /\
    (p_score pb (last (levels b) 0%nat) (node_lampams pb (levels b) h) ==
       structure_misfit (b_panel_weightings b) (b_weights b) (b_targets b) (map (lamination_parameter (b_cos_sin b)) stacks))%Q.
Proof.
  intros a b pdl pb h W Sy G Hx Hk E Lh. destruct (search_set_up a b pdl pb W (g_rows _ _ _ _ G) E) as [tables U].
  destruct (levels_facts a b W) as (_ & Ne & Lw & _). destruct (n_thick a b W) as [T3 Tl]. pose proof (g_rows _ _ _ _ G) as Gr.
  assert (Lp : length (p_pdl pb) = length (b_plies b)) by (rewrite (u_rows _ _ _ _ U), map_length; exact Gr).
  assert (Lm : length (p_mat pb) = length (b_plies b)) by apply U.
  assert (Er : forall i, (i < length (b_plies b))%nat -> nth i (p_pdl pb) [] = firstn (length (levels b)) (nth i pdl [])).
  { intros i Hi. rewrite (u_rows _ _ _ _ U). apply nth_map'. lia. }
  assert (Lr : forall i, (i < length (b_plies b))%nat -> length (nth i (p_pdl pb) []) = length (levels b)).
  { intros i Hi. rewrite Er, firstn_length by exact Hi. assert (Hi2 : (i < length pdl)%nat) by lia. pose proof (g_width _ _ _ _ G _ (nth_In pdl [] Hi2)) as Gw. unfold zlen in Gw. lia. }
  assert (El : levels b = ply_order true (n_thickest b)) by (unfold levels; rewrite Sy; reflexivity).
  assert (P : forall i, (i < length (b_plies b))%nat -> exists s, zlen s = nth i (b_plies b) 0 /\ palindrome s /\
    firstn (n_half (length s)) s = selected h (firstn (length (levels b)) (nth i pdl [])) /\
    forall k, (nd_lampam (panel_node pb (levels b) h (nth i (p_pdl pb) [], nth i (p_mat pb) [])) k == lamination_parameter (b_cos_sin b) s k)%Q).
  { intros i Hi. pose proof (plies_three a b W i Hi) as N3. set (n := Z.to_nat (nth i (b_plies b) 0)) in *.
    destruct (C22_sym_accumulated_lampam_partial (b_cos_sin b) (n_thickest b) n (nth i (p_pdl pb) []) h) as (M & s & EM & H).
    - unfold n. lia.
    - rewrite Lr, El by exact Hi. reflexivity.
    - rewrite Lr by exact Hi. exact Lh.
    - intros x Ix. rewrite Er in Ix by exact Hi. apply (Hx (nth i pdl [])); [apply nth_In; lia|]. rewrite <- (firstn_skipn (length (levels b)) (nth i pdl [])). apply in_app_iff. left; exact Ix.
    - rewrite Er by exact Hi. unfold ply_order. rewrite seq_length. apply Hk, Hi.
    - pose proof (u_mat _ _ _ _ U i Hi) as EM'. rewrite Sy in EM'. fold n in EM'. rewrite EM in EM'. injection EM' as ->. cbv zeta in H. destruct H as (_ & Ls & Ps & Fs & V). exists s.
      split; [unfold zlen, n in *; lia|]. split; [exact Ps|]. split.
      + rewrite Ls, <- Er by exact Hi. unfold ply_order in Fs. rewrite seq_length in Fs. exact Fs.
      + intros k. unfold panel_node. cbn [fst snd]. rewrite (u_cons _ _ _ _ U), Sy, El. apply V. }
  assert (Q : exists stacks, length stacks = length (b_plies b) /\ forall i, (i < length (b_plies b))%nat -> let s := nth i stacks [] in
    zlen s = nth i (b_plies b) 0 /\ palindrome s /\ firstn (n_half (length s)) s = selected h (firstn (length (levels b)) (nth i pdl [])) /\
    forall k, (nd_lampam (panel_node pb (levels b) h (nth i (p_pdl pb) [], nth i (p_mat pb) [])) k == lamination_parameter (b_cos_sin b) s k)%Q).
  { clear -P. revert P. generalize (length (b_plies b)). intros n. induction n as [|n IH]; intros P; [exists []; split; [reflexivity|intros; lia]|].
    destruct IH as (st & L & H); [intros i Hi; apply P; lia|]. destruct (P n ltac:(lia)) as [s Hs]. exists (st ++ [s]). split; [rewrite app_length; cbn; lia|].
    intros i Hi. destruct (Nat.eq_dec i n) as [->|N]; [rewrite app_nth2 by lia; rewrite L, Nat.sub_diag; exact Hs|rewrite app_nth1 by lia; apply H; lia]. }
  destruct Q as (stacks & Ls & H). exists stacks. split; [exact Ls|]. split.
  { intros i Hi. destruct (H i Hi) as (A & B & C & _). auto. }
  assert (Il : In (last (levels b) 0%nat) (levels b)).
  { destruct (@exists_last _ (levels b) Ne) as (m & x & ->). rewrite last_last. apply in_app_iff. right; left; reflexivity. }
  destruct (score_value a b pdl pb tables W G U (last (levels b) 0%nat) (levels b) (last (levels b) 0%nat) h Il) as [V _]. unfold score_of in V. fold (node_lampams pb (levels b) h) in V. rewrite V.
  unfold structure_misfit. rewrite !map_length, combine_len, Lp, Ls by lia. apply sum_to_ext. intros i Hi. apply Qmult_comp; [reflexivity|].
  pose proof (w_weights a b W) as Lq. pose proof (u_tables _ _ _ _ U) as Lt.
  rewrite (nth_map' (fun T => nth (last (levels b) 0%nat) T []) tables i []) by lia.
  rewrite (nth_map' (fun rm => nd_lampam (panel_node pb (levels b) h rm)) _ i ([], [])) by (rewrite combine_len; lia). rewrite combine_nth' by lia.
  rewrite (nth_map' (lamination_parameter (b_cos_sin b)) stacks i []) by lia. destruct (H i Hi) as (_ & _ & _ & Hl).
  apply misfit_ext; [|intros k _; apply Hl].
  pose proof (w_normalised a b W) as N. rewrite Forall_forall in N. assert (Hi' : (i < length (b_weights b))%nat) by lia. destruct (N _ (nth_In (b_weights b) [] Hi')) as [N1 N2].
  pose proof (plies_three a b W i Hi) as N3. assert (T1 : (1 <= Z.to_nat (nth i (b_plies b) 0%Z))%nat) by lia.
  apply (C84_last_column (sym (b_cons b)) (Z.to_nat (nth i (b_plies b) 0)) (nth i (p_pdl pb) []) (nth i (b_weights b) [])); auto.
  - rewrite Er, Sy by exact Hi. unfold ply_order. rewrite seq_length. apply Hk, Hi.
  - apply (u_table _ _ _ _ U i Hi).
  - rewrite Lr, El by exact Hi. unfold ply_order. rewrite seq_length. assert (n_half (n_thickest b) <> 0)%nat as Nz by (pose proof (n_half_spec (n_thickest b)); lia).
    destruct (n_half (n_thickest b)) as [|m]; [congruence|]. rewrite seq_S, last_last. lia.
Qed.
Print Assumptions C84_leaf_score_partial.

(** the hypotheses are met by the structure of [C81_example] *)
Example C84_example : exists c pb, well_given (args_re true true true) (bella_ex c [8; 12] 0) /\ sym c = true /\ layout_given c [8; 12] 0 layout_1 /\
  (forall r x, In r layout_1 -> In x r -> -1 <= x) /\
  (forall i, (i < 2)%nat -> countb kept (firstn 6 (nth i layout_1 [])) = n_half (Z.to_nat (nth i [8; 12] 0))) /\
  search_problem (bella_ex c [8; 12] 0) layout_1 = Ok pb /\ length (levels (bella_ex c [8; 12] 0)) = 6%nat /\
  (* the objectives of two designs *)
  let score h := Qred (p_score pb 5%nat (node_lampams pb (levels (bella_ex c [8; 12] 0)) h)) in
  (score [90; 45; 0; -45; 0; 0]%Z < score [0; 0; 0; 0; 0; 0]%Z)%Q.
Proof.
  destruct (mk_cons (args_re true true true)) as [c|] eqn:E; [|vm_compute in E; discriminate]. exists c. eexists. split; [apply ex_given, E|].
  pose proof E as E'. vm_compute in E'. injection E' as <-. split; [reflexivity|]. split; [apply ex_layouts; left; reflexivity|]. split.
  { intros r x [<-|[<-|[]]] Hx; cbn in Hx; repeat (destruct Hx as [<-|Hx]; [lia|]); destruct Hx. }
  split; [intros [|[|i]] Hi; try reflexivity; lia|]. split; [reflexivity|]. split; [reflexivity|]. vm_compute. reflexivity.
Qed.

Definition args_free : cargs := {|
  a_sym := false; a_bal := false; a_oopo := false; a_dam_tol := false;
  a_rule_10_percent := false; a_rule_10_Abdalla := false; a_percent_Abdalla := 0;
  a_combine_45_135 := true; a_calc_combine_45_135 := true;
  a_percent_0 := 0; a_percent_45 := 0; a_percent_90 := 0; a_percent_135 := 0; a_percent_45_135 := 0;
  a_diso := false; a_contig := false; a_n_contig := 5; a_delta_angle := 45;
  a_dam_tol_rule := 1; a_set_of_angles := [0; 45; 90; -45]; a_min_drop := 2;
  a_pdl_spacing := true; a_covering := false; a_n_covering := 0 |}.
Ltac one ls h l a := refine (reach_snoc _ ls h l a _ _ _ _ _); [|vm_compute; reflexivity|cbn; tauto|vm_compute; discriminate].
Ltac reached a1 a2 a3 a4 := one [0; 3; 1]%nat [a1; a2; a3] 2%nat a4; one [0; 3]%nat [a1; a2] 1%nat a3; one [0]%nat [a1] 3%nat a2; one (@nil nat) (@nil Z) 0%nat a1; constructor.

(** Asymmetric laminates: in one panel of four plies the search prefers, at its last level, a
    design whose laminate is further from the target *)
Theorem C84_asymmetric_leaf_refuted : exists a b pdl pb h1 h2,
  well_given a b /\ b_plies b = [4] /\ layout_given (b_cons b) (b_plies b) (b_ref b) pdl /\ search_problem b pdl = Ok pb /\
  reach pb (levels b) h1 /\ reach pb (levels b) h2 /\
  ss_of pb (levels b) h1 = [([45; 0], [90; 0])] /\ ss_of pb (levels b) h2 = [([45; 0], [0; 90])] /\
  let score h := p_score pb (last (levels b) 0%nat) (node_lampams pb (levels b) h) in
  let distance s := structure_misfit (b_panel_weightings b) (b_weights b) (b_targets b) [lamination_parameter (b_cos_sin b) s] in
  (score h1 < score h2)%Q /\ (distance [45; 0; 0; 90]%Z < distance [45; 0; 90; 0]%Z)%Q.
Proof.
  destruct (mk_cons (args_free)) as [c|] eqn:E; [|vm_compute in E; discriminate]. pose proof E as E'. vm_compute in E'. injection E' as E'.
  exists (args_free). exists {| b_cons := c; b_strip := chain_strip 1; b_plies := [4]; b_ref := 0%nat; b_cos_sin := cos_sin_4; b_lampam := lp_12; b_distA := fun _ => 0%Q; b_pen10 := fun _ _ => Ok 0%Q;
     b_targets := [[1 # 2; 0; 0; 0; 0; 0; 0; 0; -1 # 2; 0; 0; 0]%Q]; b_weights := [even_12];
     b_panel_weightings := [1%Q]; b_coeffs := coeffs_2; b_rparams := par_mp false;
     b_local := 2; b_local_final := 2; b_global := 3; b_global_final := 2; b_save_success_rate := false |}. exists [[1; 2; 3; 4]].
  eexists. exists [45; 0; 90; 0], [45; 90; 0; 0]. split.
  { constructor; try reflexivity; try exact E; cbn [b_cons b_plies b_ref b_targets b_weights b_panel_weightings].
    - subst c; cbn; intuition discriminate.
    - repeat constructor.
    - repeat constructor; discriminate.
    - cbn; lia.
    - subst c; discriminate.
    - repeat constructor; discriminate.
    - constructor; [w12|constructor].
    - split; [repeat constructor; discriminate|reflexivity].
    - subst c. intros X; discriminate X.
    - right; subst c; reflexivity.
    - intros x i. apply cos_sin_4_bound. }
  split; [reflexivity|]. split.
  { subst c. constructor; [reflexivity|intros r [<-|[]]; reflexivity|unfold dropped; cbn; lia|reflexivity|discriminate]. }
  subst c. split; [reflexivity|].
  split; [reached 45 0 90 0|]. split; [reached 45 90 0 0|].
  split; [reflexivity|]. split; [reflexivity|]. split; vm_compute; reflexivity.
Qed.
Print Assumptions C84_asymmetric_leaf_refuted.
