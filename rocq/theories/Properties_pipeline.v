(* Properties_pipeline.v - C57 (angles of all the panels) and C81: the complete optimisation. *)
From Coq Require Import Lqa.
From Verif Require Import Base Uniq Constraints Guidelines SpecGuidelines GuidelinesProofs ConstraintsProofs GateProofs Divers Spacing Strip StripProofs Format FormatProofs
  Search Objectives Repair10 RepairDiso Membrane Flexural Abdalla10 SpecRedesign Redesign RedesignProofs RedesignThick RepairMp RepairMpProofs
  Properties_guidelines Properties_format Properties_repairdiso Properties_membrane Properties_flexural Properties_redesign Properties_repairmp
  Pruning PdlTools Moments MomentsProofs SearchProofs Properties_search Beam BeamProofs Divide Properties_divide PdlIni Properties_pdlini Final Properties_final ObjectivesProofs Properties_objectives Properties_moments Levels LampamBound Properties_levels Pipeline.
Local Open Scope Z_scope.

(* ------------------------------------------------------------------ *)
(** ** C57: all the panels of a repaired design *)
Lemma nth_plies sst j : nth j (map plies_of sst) [] = plies_of (nth j sst []).
Proof. rewrite <- (map_nth plies_of). reflexivity. Qed.
Lemma Forall_sublist (P : Z -> Prop) l m : sublist l m -> Forall P m -> Forall P l.
Proof. intros H; induction H; intros F; auto; inversion F; subst; auto. Qed.
Lemma thick_rows c st lampam dist targets weights pw plies ref ll gl table sst lps ss sst' lps' ss' :
  repair_thin_to_thick c st lampam dist targets weights pw plies ref ll gl table (sst, lps, ss) = Ok (true, (sst', lps', ss')) -> ss' = ss \/ length ss' = length sst'.
Proof.
  unfold repair_thin_to_thick. destruct (row ss ref); cbn [bind]; [|discriminate]. destruct (row sst ref); cbn [bind]; [|discriminate].
  destruct table as [steps|]; [|intros X; injection X as <- <- <-; auto].
  destruct (thick_start _ _ _ _ _ _); cbn [bind]; [|discriminate]. destruct (Redesign.search _ _ _ _ _ _ _ _) as [[nodes|]|]; cbn [bind]; try discriminate.
  destruct (argmin _); cbn [bind]; [|discriminate]. destruct (all_rows _); cbn [bind]; [|discriminate]. destruct (all_rows _); cbn [bind]; [|discriminate].
  repeat match goal with |- (do x <- ?X; _) = _ -> _ => destruct X; cbn [bind]; [|discriminate] end. intros X; injection X as <- <- <-. right. unfold convert_sst_to_ss. apply map_length.
Qed.
Theorem C57_angles : forall a c st cos_sin lampam distA targets weights weightsA weightsD panel_weightings plies ref p pdl ss ss' sst' pdl' stage,
  mk_cons a = Ok c -> ~ In dropped (set_of_angles c) -> repairable c plies ref pdl ss -> objective_bounded cos_sin targets weightsD ref ->
  repair_mp c st cos_sin lampam distA targets weights weightsA weightsD panel_weightings plies ref p pdl ss = Ok (true, ss', sst', pdl', stage) ->
  length ss' = length plies /\
  (* the angles are allowed; 666 stands for an unknown ply, which only the 10% rule without balance can leave *)
  (forall j, (j < length plies)%nat -> Forall (fun x => x = 666 \/ x = 0 \/ In x (set_of_angles c)) (nth j ss' []) /\
     (bal c = true \/ rule_10_percent c = false -> ~ In 666 (nth j ss' []))) /\
  (* the disorientation guideline holds in the panels thicker than the reference panel *)
  (diso c = true -> ~ In 666 (nth ref ss' []) -> forall j, (ref < j < length plies)%nat -> forall m, covered_plies c (nth j ss' []) m -> m <> [] -> diso_stack (delta_angle c) m) /\
  (* the covering plies of the reference panel are found in the thicker panels *)
  (covering c = true -> forall j, (ref < j < length plies)%nat ->
     firstn (n_covering c) (nth j ss' []) = firstn (n_covering c) (nth ref ss' []) /\ lastn (n_covering c) (nth j ss' []) = lastn (n_covering c) (nth ref ss' [])).
Proof.
  intros a c st cos_sin lampam distA targets weights weightsA weightsD pw plies ref p pdl ss ss' sst' pdl' stage Ha Hset I Hobj H0.
  pose proof (mk_cons_consistent a c Ha) as K. pose proof H0 as H. unfold repair_mp in H. revert H.
  destruct (repair_reference_panel _ _ _ _ _ _ _ _ _ _ _) as [[[[d1 lps1] sst1] ss1]|] eqn:E1; cbn [bind]; [|discriminate].
  destruct d1; cbn [negb].
  2: { destruct (convert_ss_to_sst _ _); cbn [bind]; [|discriminate]. intros X. injection X as X. discriminate. }
  apply (reference_panel c cos_sin lampam distA targets weightsA weightsD plies ref p pdl K Hset Hobj _ _ _ _ _ I) in E1.
  destruct (repaired_design c lampam plies ref pdl ss lps1 sst1 ss1 I E1) as [D Er].
  destruct E1 as (M & Bl & Ess & [Ft Fn] & Pt & Ck & Lr). cbv zeta in *.
  destruct (row ss1 ref) as [ss_ref|] eqn:E2; cbn [bind]; [|discriminate].
  destruct (thin_table _ _ _) as [thin|] eqn:T1; cbn [bind]; [|discriminate].
  destruct (repair_thick_to_thin _ _ _ _ _ _ _ _ _ _ _ _ _) as [[d2 [[sst2 lps2] ss2]]|] eqn:E3; cbn [bind]; [|discriminate].
  destruct d2; cbn [negb].
  2: { destruct (convert_ss_to_sst _ _); cbn [bind]; [|discriminate]. intros X. injection X as X. discriminate. }
  destruct (row ss2 ref) as [r2|]; cbn [bind]; [|discriminate]. destruct (differs r2 ss_ref); cbn [guard bind]; [discriminate|].
  destruct (thick_table _ _ _) as [thick|] eqn:T2; cbn [bind]; [|discriminate].
  destruct (repair_thin_to_thick _ _ _ _ _ _ _ _ _ _ _ _ _) as [[d3 [[sst3 lps3] ss3]]|] eqn:E4; cbn [bind]; [|discriminate].
  destruct d3; cbn [negb].
  2: { destruct (convert_ss_to_sst _ _); cbn [bind]; [|discriminate]. intros X. injection X as X. discriminate. }
  destruct (row ss3 ref) as [r3|]; cbn [bind]; [|discriminate]. destruct (differs r3 ss_ref); cbn [guard bind]; [discriminate|].
  destruct (ply_counts _ _ _) as [[]|]; cbn [bind]; [|discriminate]. intros X. injection X as <- <- _ _.
  destruct (C37_redesign_partial c st lampam (dist distA) targets weights pw plies ref (r_local p) (r_global p) thin thick sst1 lps1 ss1 sst2 lps2 ss2 sst3 lps3 ss3 D Hset Er T1 T2 E3 E4) as (Rr & L3 & B3 & F3 & S3).
  destruct (C37_thick_to_thin_partial _ _ _ _ _ _ _ _ _ _ _ _ _ _ _ _ _ _ _ D T1 E3) as (_ & X). destruct (X eq_refl) as ((Lt & _ & Ls) & Kp & Tn). clear X.
  destruct (Kp ref (le_n _)) as (K1 & _ & K3).
  assert (D' : strip_design (sym c) plies ref sst2).
  { destruct D as [D1 D2 D3 D4 D5 D6 D7]. constructor; try assumption; try (rewrite K1; assumption). lia. }
  assert (Hs2 : forall j, (j <= ref)%nat -> nth j ss2 [] = plies_of (nth j sst2 [])).
  { intros j Hj. destruct (Nat.eq_dec j ref) as [->|E]; [rewrite K1, K3; exact Er|]. apply Tn. lia. }
  destruct (C37_thin_to_thick_partial c st lampam (dist distA) targets weights pw plies ref (r_local p) (r_global p) thick sst2 lps2 ss2 true sst3 lps3 ss3 D' Hset) as (_ & X); auto.
  { intros j Hj. apply Tn, Hj. }
  { intros Y j Hj. apply Tn; auto. }
  destruct (X eq_refl) as (_ & _ & G3). clear X.
  assert (Hr : (ref < length plies)%nat) by apply (i_ref _ _ _ _ _ I).
  assert (L : length ss3 = length plies).
  { destruct (thick_rows _ _ _ _ _ _ _ _ _ _ _ _ _ _ _ _ _ _ E4) as [->| ->]; [|lia]. rewrite Ls, Ess, map_length. apply (d_rows _ _ _ _ D). }
  split; [exact L|]. rewrite Rr.
  destruct (k_set c K) as (_ & Fa & _). pose proof Fa as Fa'. rewrite Forall_forall in Fa'.
  assert (Above : forall j, (ref <= j < length plies)%nat -> forall x, In x (nth j ss3 []) -> In x (nth ref ss1 []) \/ In x (set_of_angles c)).
  { intros j Hj x Hx. destruct (Nat.eq_dec j ref) as [->|N]; [left; rewrite <- Rr; exact Hx|]. destruct (G3 j ltac:(lia)) as (_ & _ & _ & _ & G4). specialize (G4 ltac:(lia)).
    destruct G4 as (_ & _ & _ & _ & _ & G4). specialize (G4 x Hx). rewrite K3 in G4. exact G4. }
  assert (Below : forall k j, (j + k = ref)%nat -> forall x, In x (nth j ss3 []) -> In x (nth ref ss1 [])).
  { induction k as [|k IH]; intros j Hj x Hx; [replace j with ref in Hx by lia; rewrite <- Rr; exact Hx|]. apply (IH (S j) ltac:(lia)).
    pose proof (Forall_sublist (fun x => In x (nth (S j) ss3 [])) _ _ (S3 j ltac:(lia))) as Y. rewrite !Forall_forall in Y. apply Y; auto. }
  assert (Any : forall j, (j < length plies)%nat -> forall x, In x (nth j ss3 []) -> In x (nth ref ss1 []) \/ In x (set_of_angles c)).
  { intros j Hj x Hx. destruct (Nat.le_gt_cases ref j); [apply (Above j); auto|]. left. apply (Below (ref - j)%nat j); [lia|exact Hx]. }
  rewrite Forall_forall in Ft. split; [|split].
  - intros j Hj. split.
    + apply Forall_forall. intros x Hx. destruct (Any j Hj x Hx) as [Y|Y]; [apply Ft, Y|auto].
    + intros B Y. destruct (Any j Hj _ Y) as [Y'|Y']; [exact (Fn B Y')|]. apply Fa' in Y'. destruct Y'; lia.
  - intros Ed N6 j Hj m Hm Ne. destruct (G3 j ltac:(lia)) as (_ & _ & _ & _ & G4). specialize (G4 ltac:(lia)). destruct G4 as (_ & _ & G4 & _). rewrite K3 in G4.
    apply G4; auto. apply Forall_forall. intros x Hx. destruct (Ft x Hx) as [->|[->|Y]]; [destruct (N6 Hx)|unfold angle_ok; lia|apply Fa', Y].
  - intros Ec j Hj. destruct (G3 j ltac:(lia)) as (_ & _ & _ & _ & G4). specialize (G4 ltac:(lia)). destruct G4 as (_ & _ & _ & _ & G4 & _). rewrite K3 in G4. apply G4, Ec.
Qed.
Print Assumptions C57_angles.

(* ------------------------------------------------------------------ *)
(** ** the designs of the search use allowed angles only *)
Lemma filterR_incl {A} (f : A -> result bool) l r x : filterR f l = Ok r -> In x r -> In x l.
Proof.
  revert r; induction l as [|y l IH]; cbn [filterR]; intros r; [intros X; injection X as <-; auto|].
  destruct (f y) as [b|]; cbn [bind]; [|discriminate]. destruct (filterR f l) as [r'|]; cbn [bind]; [|discriminate].
  specialize (IH r' eq_refl). destruct b; intros X; injection X as <-; cbn; intuition.
Qed.
Lemma pruning_from c n level hm bot top child l a : pruning c n level hm bot top child = Ok (Some l) -> In a l -> a = 0 \/ a = 90 \/ In a child.
Proof.
  unfold pruning. set (child' := if (_ && hm)%bool then [0; 90] else child).
  assert (C : forall x, In x child' -> x = 0 \/ x = 90 \/ In x child) by (unfold child'; destruct (_ && hm)%bool; cbn; intuition).
  intros H Ha. apply C. revert H. clearbody child'. clear C.
  assert (N : forall r, none_if_empty r = Some l -> r = l) by (intros [|? ?]; cbn; congruence).
  destruct (_ && _)%bool. { intros X; injection X as X. apply N in X. subst l. apply filter_In in Ha. tauto. }
  destruct (_ && _ && _)%bool.
  { destruct (filterR _ child') as [r|] eqn:E; cbn [bind]; [|discriminate]. intros X; injection X as X. apply N in X. subst l. eapply filterR_incl; eauto. }
  destruct (_ && _ && _)%bool.
  { destruct (filterR _ child') as [r|] eqn:E; cbn [bind]; [|discriminate]. intros X; injection X as X. apply N in X. subst l. eapply filterR_incl; eauto. }
  destruct (prune_diso _ _ _ _ _ _) as [d|] eqn:E; cbn [bind]; [|discriminate].
  destruct (_ && _)%bool; [discriminate|]. destruct (prune_contig _ _ _ _ _ _) as [k|] eqn:E'; cbn [bind]; [|discriminate].
  destruct (_ && _)%bool; [discriminate|]. intros X; injection X as ->.
  assert (In a d) as Hd.
  { unfold prune_contig in E'. destruct (contig c); [|injection E' as ->; exact Ha]. destruct (negb _).
    - destruct (_ || _)%bool; [eapply filterR_incl; eauto|injection E' as ->; exact Ha].
    - destruct (sym c); eapply filterR_incl; eauto. }
  clear E' Ha. unfold prune_diso in E. destruct (diso c); [|injection E as ->; exact Hd].
  assert (F : forall f, In a (filter f child') -> In a child') by (intros f X; apply filter_In in X; tauto).
  cbv zeta in E. destruct (_ && _)%bool.
  - apply (filterR_incl _ _ _ a) in E; [|exact Hd]. destruct (_ || _)%bool; destruct (py_get _ _); eauto.
  - injection E as <-. destruct (_ || _)%bool; destruct (py_get _ _); eauto.
Qed.

Lemma reach_set pb ls h : (forall x, In x (set_of_angles (p_cons pb)) -> x <> -90) -> reach pb ls h -> Forall (fun x => In x (set_of_angles (p_cons pb))) h.
Proof.
  intros N H. induction H as [|ls h l a angs H IH P Ha Hi]; [constructor|]. apply Forall_app. split; [exact IH|]. constructor; [|constructor].
  assert (a <> -90) as Na. { destruct (pruning_from _ _ _ _ _ _ _ _ a P Ha) as [->|[->|X]]; try discriminate. apply N, X. }
  destruct (ind_angle _ a) as [k|] eqn:E; [|congruence]. apply ind_angle_nth in E; [|exact Na]. eapply nth_error_In, E.
Qed.
Lemma search_from (P : Z -> Prop) s row m : forall ls h nd, Forall P h -> Forall P (nd_bot nd ++ nd_top nd) ->
  Forall P (nd_bot (Moments.search s row m nd ls h) ++ nd_top (Moments.search s row m nd ls h)).
Proof.
  induction ls as [|l ls IH]; intros [|a h] nd F G; cbn [Moments.search]; auto. inversion F; subst. apply IH; auto. apply Forall_app in G. destruct G.
  unfold branch; cbn [nd_bot nd_top]. apply Forall_app. split; destruct (_ && _)%bool; auto. apply Forall_app; auto.
Qed.

Lemma beam_designs pb ls t : length (p_pdl pb) = length (p_mat pb) ->
  (forall l1 l l2 h, ls = l1 ++ l :: l2 -> reach pb (l1 ++ [l]) h -> (-6666 < score_of pb (last ls 0%nat) (l1 ++ [l]) l h < 6666)%Q) ->
  (forall x, In x (set_of_angles (p_cons pb)) -> x <> -90) -> ls <> [] -> beam pb ls = Ok t ->
  forall d, In d (t_ss t) -> length d = length (p_pdl pb) /\ Forall (fun part => Forall (fun x => In x (set_of_angles (p_cons pb))) (fst part ++ snd part)) d.
Proof.
  intros L B N Ne X d Hd.
  destruct (beam_reach_ok pb ls t L (fun l1 l l2 h P R => proj1 (B l1 l l2 h P R)) (fun l1 l l2 h P R => proj2 (B l1 l l2 h P R)) X Ne) as (hs & (E1 & _) & R & _).
  rewrite E1 in Hd. apply in_map_iff in Hd. destruct Hd as [h [<- Hh]]. specialize (R h Hh). apply reach_set in R; [|exact N]. unfold ss_of.
  split; [rewrite map_length, combine_length; lia|]. apply Forall_forall. intros part Hp. apply in_map_iff in Hp. destruct Hp as [rm [<- _]]. cbn [fst snd].
  unfold panel_node. apply search_from; [exact R|constructor].
Qed.

(* ------------------------------------------------------------------ *)
(** ** Specification of C81 *)

(** a ply-drop layout of the blending strip (read from a file, or generated): one row per panel,
    as wide as the thickest panel, which has no drop; the reference panel keeps its number of
    plies; symmetric drops in a symmetric laminate *)
Record layout_given (c : cons) (plies : list Z) (ref : nat) (pdl : list (list Z)) : Prop := {
  g_rows : length pdl = length plies;
  g_width : forall r, In r pdl -> zlen r = last plies 0;
  g_thickest : ~ In dropped (last pdl []);
  g_reference : zlen (plies_of (nth ref pdl [])) = nth ref plies 0;
  g_mirror : sym c = true -> forall i, (i < length pdl)%nat -> let drops := map (Z.eqb dropped) (nth i pdl []) in drops = rev drops }.

(** the problem given to the optimiser *)
Record well_given (a : cargs) (b : bella) : Prop := {
  w_cons : mk_cons a = Ok (b_cons b);
  w_angles : ~ In dropped (set_of_angles (b_cons b));
  w_increasing : StronglySorted Z.lt (b_plies b);
  w_three : Forall (fun n => 3 <= n) (b_plies b);
  w_ref : (b_ref b < length (b_plies b))%nat;
  w_parity : sym (b_cons b) = true -> forall i, (i < length (b_plies b))%nat -> Z.even (nth i (b_plies b) 0) = Z.even (nth (b_ref b) (b_plies b) 0);
  (* one target, one vector of normalised weightings and one weighting for each panel *)
  w_targets : length (b_targets b) = length (b_plies b); w_weights : length (b_weights b) = length (b_plies b); w_weightings : length (b_panel_weightings b) = length (b_plies b);
  w_target_range : Forall (fun t => length t = 12%nat /\ Forall (fun x => -1 <= x <= 1)%Q t) (b_targets b);
  w_normalised : Forall (fun w => weighting12 w /\ (sum_to 12 (fun k => nth k w 0) == 1)%Q) (b_weights b);
  w_panels : Forall (fun p => 0 <= p)%Q (b_panel_weightings b) /\ (sumQ (b_panel_weightings b) == 1)%Q;
  w_contig : contig_supported (b_cons b);
  (* balance is required with the 10% rule (otherwise the repair may leave unknown plies) *)
  w_known : bal (b_cons b) = true \/ rule_10_percent (b_cons b) = false;
  (* cosines and sines *)
  w_trig : trig (b_cos_sin b);
  w_save : b_save_success_rate b = false }.

Lemma w_nonneg a b : well_given a b -> Forall (Forall (fun w => 0 <= w)%Q) (b_weights b).
Proof. intros W. eapply Forall_impl; [|apply (w_normalised a b W)]. intros w [[_ X] _]. exact X. Qed.
Lemma le_one w i : weighting12 w -> (sum_to 12 (fun k => nth k w 0) == 1)%Q -> (0 <= nth i w 0 <= 1)%Q.
Proof.
  intros [L F] S. destruct (Nat.lt_ge_cases i 12) as [Hi|Hi]; [|rewrite nth_overflow by lia; lra].
  assert (N : forall k, (k < 12)%nat -> (0 <= nth k w 0)%Q) by (intros k Hk; rewrite Forall_forall in F; apply F, nth_In; lia).
  split; [apply N, Hi|]. rewrite <- S. clear L F S. revert N Hi. generalize 12%nat. induction n as [|n IH]; intros N Hi; [lia|]. cbn [sum_to].
  assert (0 <= sum_to n (fun k => nth k w 0))%Q by (apply sum_to_nonneg; intros; apply N; lia). pose proof (N n ltac:(lia)).
  destruct (Nat.eq_dec i n) as [->|Ne]; [lra|]. specialize (IH (fun k Hk => N k ltac:(lia)) ltac:(lia)). lra.
Qed.
(** the value 1e10 used as a mark by the repair of the reference panel is out of range *)
Lemma w_repair a b : well_given a b -> objective_bounded (b_cos_sin b) (b_targets b) (b_weightsD b) (b_ref b).
Proof.
  intros W u. pose proof (w_ref a b W) as Hr. pose proof (w_weights a b W) as Lw. pose proof (w_targets a b W) as Lt.
  assert (Hw : (b_ref b < length (b_weights b))%nat) by lia. assert (Ht : (b_ref b < length (b_targets b))%nat) by lia.
  pose proof (w_normalised a b W) as N. rewrite Forall_forall in N. destruct (N _ (nth_In (b_weights b) [] Hw)) as [N1 N2].
  pose proof (w_target_range a b W) as T. rewrite Forall_forall in T. destruct (T _ (nth_In (b_targets b) [] Ht)) as [T1 T2]. rewrite Forall_forall in T2.
  apply oop_objective_bound; [intros x i; apply (w_trig a b W)| |].
  - intros i. unfold b_weightsD. rewrite (nth_indep _ [] (firstn 4 (skipn 8 []))) by (rewrite map_length; exact Hw). rewrite (map_nth (fun w => firstn 4 (skipn 8 w))).
    destruct (Nat.lt_ge_cases i 4) as [Hi|Hi]; [|rewrite nth_overflow by (rewrite firstn_length; lia); lra].
    set (w := nth (b_ref b) (b_weights b) []) in *.
    assert (nth i (firstn 4 (skipn 8 w)) 0%Q = nth (8 + i) w 0%Q) as ->; [|apply le_one; auto].
    destruct N1 as [Lq _]. destruct (len12 w Lq) as (? & ? & ? & ? & ? & ? & ? & ? & ? & ? & ? & ? & ->). do 4 (destruct i as [|i]; [reflexivity|]). lia.
  - intros i. destruct (Nat.lt_ge_cases (8 + i) 12) as [Hi|Hi]; [apply T2, nth_In; lia|rewrite nth_overflow by lia; lra].
Qed.

(** what is promised of a reported design *)
Record delivered (b : bella) (o : report) : Prop := {
  (* the table of stacking sequences is blended and is made of the reported stacks *)
  t_rows : length (o_sst o) = length (b_plies b) /\ length (o_ss o) = length (b_plies b);
  t_blended : blended (o_sst o);
  t_stacks : forall j, (j < length (b_plies b))%nat -> nth j (o_ss o) [] = plies_of (nth j (o_sst o) []);
  t_nested : forall j, (S j < length (b_plies b))%nat -> sublist (nth j (o_ss o) []) (nth (S j) (o_ss o) []);
  (* the panels have their ply counts, allowed angles and symmetric stacks *)
  t_counts : forall j, (j < length (b_plies b))%nat -> zlen (nth j (o_ss o) []) = nth j (b_plies b) 0;
  t_angles : forall j, (j < length (b_plies b))%nat -> Forall (fun x => x = 0 \/ In x (set_of_angles (b_cons b))) (nth j (o_ss o) []);
  t_symmetric : sym (b_cons b) = true -> forall j, (j < length (b_plies b))%nat -> palindrome (nth j (o_ss o) []);
  (* the reference panel satisfies the guidelines *)
  t_reference : let c := b_cons b in let t := nth (b_ref b) (o_ss o) [] in
    (dam_tol c = true -> damtol_spec c t) /\ (bal c = true -> balanced t) /\ (diso c = true -> diso_covered c t) /\
    (contig c = true -> contig_stack (n_contig c) t) /\ (rule_10_percent c = true -> ten_spec eps15 false false c t);
  (* the other ones those enforced by the re-design *)
  t_others : forall j, (j < length (b_plies b))%nat -> j <> b_ref b ->
    enforced (b_cons b) (b_lampam b) (fun l => b_distA b (fun i => nth i l 0%Q)) (nth j (o_ss o) []) /\
    nearly_as_balanced (b_cons b) (nth j (o_ss o) []) (nth (b_ref b) (o_ss o) []);
  t_thicker : diso (b_cons b) = true -> forall j, (b_ref b < j < length (b_plies b))%nat -> forall m, covered_plies (b_cons b) (nth j (o_ss o) []) m -> diso_stack (delta_angle (b_cons b)) m;
  (* the reported lamination parameters and objective values are those of the stacks *)
  t_lampam : o_lps o = map (b_lampam b) (o_ss o);
  t_objectives : forall i, (i < length (b_plies b))%nat -> (nth i (o_obj o) 0 == panel_objective (b_lampam b) (b_targets b) (b_weights b) (o_ss o) i)%Q;
  t_total : (forall i, (i < length (b_plies b))%nat -> ~ (nth i (o_obj o) 0 == 10000000000)%Q) ->
    exists pd pc pt, o_pens o = (pd, pc, pt) /\ penalised (b_cons b) (final_panels b) (b_lampam b) (b_pen10 b) (o_ss o) pd pc pt /\
      (o_total o == penalised_objective (final_panels b) (b_lampam b) (b_targets b) (b_weights b) (b_panel_weightings b) (b_coeffs b) (o_ss o) pd pc pt)%Q }.

(* ------------------------------------------------------------------ *)
(** ** one layout *)
Lemma joined_from c (P : Z -> Prop) p part s : joined c p part s -> (f_middle p = true -> sym c = true) -> Forall P (fst part ++ snd part) -> Forall P s.
Proof.
  intros (_ & J1 & J2 & J3) _ F. apply Forall_app in F. destruct F as [F1 F2].
  destruct (sym c) eqn:Y; [|rewrite (J1 eq_refl); apply Forall_app; auto].
  destruct (f_middle p) eqn:M.
  - destruct (J3 eq_refl eq_refl) as (l & m & E & ->). rewrite E in F1. apply Forall_app in F1. destruct F1 as [F1 F3]. apply Forall_app. split; [exact F1|].
    inversion F3; subst. constructor; auto. apply Forall_rev, F1.
  - rewrite (J2 eq_refl eq_refl). apply Forall_app. split; [exact F1|apply Forall_rev, F1].
Qed.
Lemma last_is_nth {A} (d : A) l : last l d = nth (length l - 1) l d.
Proof. destruct l as [|x l]; [reflexivity|]. destruct (@exists_last _ (x :: l)) as [m [y E]]; [discriminate|]. rewrite E, last_last, app_length. cbn [length]. rewrite app_nth2 by lia. replace (length m + 1 - 1 - length m)%nat with 0%nat by lia. reflexivity. Qed.

Lemma repairable_designs a b pdl d stacks : well_given a b -> layout_given (b_cons b) (b_plies b) (b_ref b) pdl ->
  length d = length (b_plies b) -> Forall (fun part => Forall (fun x => In x (set_of_angles (b_cons b))) (fst part ++ snd part)) d ->
  Forall2 (fun pp s => joined (b_cons b) (fst pp) (snd pp) s) (List.combine (final_panels b) d) stacks ->
  repairable (b_cons b) (b_plies b) (b_ref b) pdl stacks.
Proof.
  intros W G Ld Fd J. pose proof (w_ref a b W) as Hr.
  assert (Lp : length (final_panels b) = length (b_plies b)) by (unfold final_panels; apply map_length).
  pose proof (F2_length _ _ _ J) as Ls. rewrite combine_len in Ls by lia.
  assert (S1 : forall i, (i < length (b_plies b))%nat -> joined (b_cons b) (panel_of (b_cons b) (nth i (b_plies b) 0)) (nth i d ([], [])) (nth i stacks [])).
  { intros i Hi. pose proof (Forall2_nth' _ _ _ (panel_of (b_cons b) 0, ([], [])) [] J i) as X. rewrite combine_len, combine_nth' in X by lia. specialize (X ltac:(lia)). cbn [fst snd] in X.
    unfold final_panels in X. rewrite map_nth in X. exact X. }
  assert (S2 : forall i, (i < length (b_plies b))%nat -> Forall (fun x => In x (set_of_angles (b_cons b))) (nth i stacks [])).
  { intros i Hi. apply (joined_from (b_cons b) _ _ _ _ (S1 i Hi)); [cbn; destruct (sym (b_cons b)); [reflexivity|discriminate]|]. rewrite Forall_forall in Fd. apply Fd, nth_In. lia. }
  constructor; try apply W; try apply G.
  - split; [apply G|lia].
  - intros Y. apply (g_mirror _ _ _ _ G Y). rewrite (g_rows _ _ _ _ G). exact Hr.
  - rewrite !last_is_nth. replace (length stacks) with (length (b_plies b)) by lia. split.
    + destruct (S1 (length (b_plies b) - 1)%nat ltac:(lia)) as (X & _). exact X.
    + intros X. pose proof (S2 (length (b_plies b) - 1)%nat ltac:(lia)) as F. rewrite Forall_forall in F. exact (w_angles a b W (F _ X)).
  - apply S2, Hr.
Qed.

Lemma covered_some c s : 3 <= zlen s -> ~ covered_plies c s [].
Proof.
  unfold zlen. intros L [(_ & _ & [(x & y & E)|(E & _)])|(_ & E)].
  - subst s. cbn in L. lia.
  - lia.
  - subst s. cbn in L. lia.
Qed.
Lemma plies_three a b : well_given a b -> forall j, (j < length (b_plies b))%nat -> 3 <= nth j (b_plies b) 0.
Proof. intros W j Hj. pose proof (w_three a b W) as F. rewrite Forall_forall in F. apply F, nth_In, Hj. Qed.

Lemma repaired_some a b pdl d r stage : well_given a b -> layout_given (b_cons b) (b_plies b) (b_ref b) pdl ->
  length d = length (b_plies b) -> Forall (fun part => Forall (fun x => In x (set_of_angles (b_cons b))) (fst part ++ snd part)) d ->
  repaired_to (b_cons b) (final_panels b) (repair_of b pdl) d r -> x_done r = true -> stage = x_stage r ->
  exists stacks pdl', repairable (b_cons b) (b_plies b) (b_ref b) pdl stacks /\
    repair_mp (b_cons b) (b_strip b) (b_cos_sin b) (b_lampam b) (b_distA b) (b_targets b) (b_weights b) (b_weightsA b) (b_weightsD b)
      (b_panel_weightings b) (b_plies b) (b_ref b) (b_rparams b) pdl stacks = Ok (true, x_ss r, x_sst r, pdl', stage).
Proof.
  intros W G Ld Fd (stacks & J & R) D ->. exists stacks. pose proof (repairable_designs a b pdl d stacks W G Ld Fd J) as P. unfold repair_of, packed in R.
  destruct (repair_mp _ _ _ _ _ _ _ _ _ _ _ _ _ _ _) as [[[[[d' ss] sst] pdl'] stage]|] eqn:E; cbn [bind] in R; [|discriminate].
  injection R as <-. cbn [x_done x_ss x_sst x_stage] in *. subst d'. exists pdl'. auto.
Qed.

Lemma design_inputs a b pdl designs : well_given a b -> layout_given (b_cons b) (b_plies b) (b_ref b) pdl ->
  (forall d, In d designs -> length d = length (b_plies b) /\ Forall (fun part => Forall (fun x => In x (set_of_angles (b_cons b))) (fst part ++ snd part)) d) ->
  inputs (b_cons b) (final_panels b) (b_targets b) (b_weights b) (b_panel_weightings b) (repair_of b pdl) designs.
Proof.
  intros W G Hd. assert (Lp : length (final_panels b) = length (b_plies b)) by (unfold final_panels; apply map_length).
  pose proof (w_ref a b W) as Hr. constructor; rewrite ?Lp; try apply (w_nonneg a b W); try apply W.
  - intros E. rewrite E in Lp. cbn in Lp. lia.
  - intros p Hp Hm. unfold final_panels in Hp. apply in_map_iff in Hp. destruct Hp as [n [<- Hn]]. cbn [panel_of f_middle f_middle_index f_plies] in Hm |- *. apply andb_true_iff in Hm. destruct Hm as [_ Hm].
    pose proof (w_three a b W) as F. rewrite Forall_forall in F. specialize (F n Hn). apply Z.odd_spec in Hm. destruct Hm as [k ->].
    replace (2 * k + 1 + 1) with ((k + 1) * 2) by ring. rewrite Z.div_mul by lia. rewrite Z2Nat.id by lia. ring.
  - intros d r Id R D. destruct (Hd d Id) as [Ld Fd]. destruct (repaired_some a b pdl d r _ W G Ld Fd R D eq_refl) as (stacks & pdl' & P & E).
    destruct (C57_angles _ _ _ _ _ _ _ _ _ _ _ _ _ _ _ _ _ _ _ _ (w_cons a b W) (w_angles a b W) P (w_repair a b W) E) as (L & A & _).
    destruct (C57_repaired_design _ _ _ _ _ _ _ _ _ _ _ _ _ _ _ _ _ _ _ _ (w_cons a b W) (w_angles a b W) P (w_repair a b W) E) as (_ & _ & _ & C & _).
    split; [exact L|]. intros s Hs. apply (In_nth _ _ []) in Hs. destruct Hs as [j [Hj <-]]. rewrite L in Hj. destruct (A j Hj) as [A1 A2]. specialize (A2 (w_known a b W)).
    destruct (k_set _ (mk_cons_consistent _ _ (w_cons a b W))) as (_ & Fa & _). rewrite Forall_forall in Fa. split.
    + rewrite Forall_forall in *. intros x Hx. destruct (A1 x Hx) as [->|[->|Y]]; [destruct (A2 Hx)|unfold angle_ok; lia|apply Fa, Y].
    + apply covered_some. destruct (C j Hj) as (_ & -> & _). apply (plies_three a b W j Hj).
Qed.

(* ------------------------------------------------------------------ *)
(** ** the search problem of a layout *)
Lemma n_thick a b : well_given a b -> (3 <= n_thickest b)%nat /\ Z.of_nat (n_thickest b) = last (b_plies b) 0.
Proof. intros W. unfold n_thickest. pose proof (w_ref a b W). pose proof (plies_three a b W (length (b_plies b) - 1)%nat ltac:(lia)) as T. rewrite <- last_is_nth in T. lia. Qed.
Lemma levels_facts a b : well_given a b -> NoDup (levels b) /\ levels b <> [] /\ (length (levels b) <= n_thickest b)%nat /\ forall l, In l (levels b) -> (l < length (levels b))%nat.
Proof.
  intros W. destruct (n_thick a b W) as [T _]. unfold levels. destruct (sym (b_cons b)).
  - unfold ply_order. rewrite seq_length. pose proof (n_half_spec (n_thickest b)) as H. split; [apply seq_NoDup|]. split.
    { intros N. apply (f_equal (@length nat)) in N. rewrite seq_length in N. cbn [length] in N. lia. }
    split; [lia|]. intros l Hl. apply in_seq in Hl. lia.
  - pose proof (ply_order_perm (n_thickest b)) as P. pose proof (Permutation_length P) as L. rewrite seq_length in L. split; [apply (Permutation_NoDup (Permutation_sym P)), seq_NoDup|].
    split; [intros N; rewrite N in L; cbn in L; lia|]. split; [lia|]. intros l Hl. apply (Permutation_in _ P), in_seq in Hl. lia.
Qed.

(** a search problem with one matrix and one table of weightings for each panel *)
Record set_up (b : bella) (pdl : list (list Z)) (pb : problem) (tables : list (list (list Q))) : Prop := {
  u_rows : p_pdl pb = map (firstn (length (levels b))) pdl;
  u_mats : length (p_mat pb) = length (b_plies b);
  u_tables : length tables = length (b_plies b);
  u_mat : forall i, (i < length (b_plies b))%nat ->
    lampam_matrix (nth i (p_pdl pb) []) (delta_lampams (sym (b_cons b)) (b_cos_sin b) (Z.to_nat (nth i (b_plies b) 0))) = Ok (nth i (p_mat pb) []);
  u_table : forall i, (i < length (b_plies b))%nat ->
    level_weightings (sym (b_cons b)) (Z.to_nat (nth i (b_plies b) 0)) (nth i (p_pdl pb) []) (nth i (b_weights b) []) = Ok (nth i tables []);
  u_score : p_score pb = node_score (b_targets b) tables (b_panel_weightings b) (b_coeffs b);
  u_cons : p_cons pb = b_cons b }.
Lemma search_set_up a b pdl pb : well_given a b -> length pdl = length (b_plies b) -> search_problem b pdl = Ok pb -> exists tables, set_up b pdl pb tables.
Proof.
  intros W Lr E. unfold search_problem in E. cbv zeta in E. set (searched := map (firstn (length (levels b))) pdl) in *.
  assert (Ls : length searched = length (b_plies b)) by (unfold searched; rewrite map_length; exact Lr).
  destruct (mapM _ (List.combine searched (b_plies b))) as [mat|] eqn:Em; cbn [bind] in E; [|discriminate].
  destruct (mapM _ (List.combine (List.combine searched (b_plies b)) (b_weights b))) as [tables|] eqn:Et; cbn [bind] in E; [|discriminate].
  unfold guard in E. destruct (negb _); cbn [bind] in E; [discriminate|]. injection E as <-.
  pose proof (w_weights a b W) as Lw.
  pose proof (mapM_len _ _ _ Em) as L1. pose proof (mapM_len _ _ _ Et) as L2. rewrite combine_len in L1 by exact Ls. rewrite combine_len, combine_len in L2 by (rewrite ?combine_len; lia).
  exists tables. constructor; cbn [p_pdl p_mat p_score p_cons]; try reflexivity; try lia.
  - intros i Hi. apply mapM_inv in Em. apply (Forall2_nth' _ _ _ ([], 0) []) with (i := i) in Em; [|rewrite combine_len; lia]. rewrite combine_nth' in Em by exact Ls. exact Em.
  - intros i Hi. apply mapM_inv in Et. apply (Forall2_nth' _ _ _ (([], 0), []) []) with (i := i) in Et; [|rewrite !combine_len; try lia; rewrite combine_len; lia].
    rewrite combine_nth', combine_nth' in Et by (rewrite ?combine_len; lia). exact Et.
Qed.

(** the weightings of a level *)
Lemma cumul_count : forall row ws acc r, length acc = length row -> cumul row ws acc = Ok r -> (countb kept row <= length ws)%nat.
Proof.
  induction row as [|x row IH]; intros ws acc r L; [cbn; lia|]. destruct acc as [|y acc]; [discriminate|]. cbn [cumul]. rewrite countb_cons. destruct (kept x).
  - destruct ws as [|w ws]; [discriminate|]. cbn [add_from map]. destruct (cumul row ws _) as [r'|] eqn:E; cbn [bind]; [|discriminate]. intros _. apply IH in E; [cbn [length]; lia|]. rewrite map_length. cbn in L. lia.
  - destruct (cumul row ws acc) as [r'|] eqn:E; cbn [bind]; [|discriminate]. intros _. apply IH in E; [lia|]. cbn in L. lia.
Qed.
Lemma weightings_count s n row w T : level_weightings s n row w = Ok T -> (countb kept row <= length (mom_areas_plus s n))%nat.
Proof.
  unfold level_weightings, calc_mom_of_areas2. destruct (cumul row (map m_area _) _) as [r|] eqn:E; cbn [bind]; [|discriminate]. intros _. apply cumul_count in E; [rewrite map_length in E; exact E|apply repeat_length].
Qed.
Lemma weightings_at s n row w T l : (1 <= n)%nat -> weighting12 w -> level_weightings s n row w = Ok T -> (l < length row)%nat ->
  weighting12 (nth l T []) /\ (sum_to 12 (fun k => nth k (nth l T []) 0) <= 1)%Q.
Proof.
  intros Hn Hw E Hl. pose proof (weightings_count _ _ _ _ _ E) as C. destruct (C21_positive_moments s n Hn) as [L _]. rewrite L in C.
  destruct (C84_level_weightings s n row w Hn C Hw) as (T' & E' & _ & H). rewrite E in E'. injection E' as <-. destruct (H l Hl) as [H1 H2]. split; [exact H1|]. cbv zeta in H2.
  destruct H2 as [H2|(_ & _ & ->)]; [|lra]. apply (Qle_trans _ (sum_to 12 (fun _ => 1 # 100000000)%Q)); [|cbn; lra]. apply sum_to_le. intros k Hk. destruct (H2 k Hk) as [A ->]. exact A.
Qed.

(** the score of the nodes of a search, whatever the angles chosen *)
Definition node_lampams (pb : problem) (ls : list nat) (h : list Z) : list lampam := map fst (num_of pb (last ls 0%nat) ls h).
Lemma node_lampams_nth pb e ls h : map fst (num_of pb e ls h) = map (fun rm => nd_lampam (panel_node pb ls h rm)) (List.combine (p_pdl pb) (p_mat pb)).
Proof. unfold num_of. rewrite map_map. reflexivity. Qed.

Lemma score_value a b pdl pb tables : well_given a b -> layout_given (b_cons b) (b_plies b) (b_ref b) pdl -> set_up b pdl pb tables ->
  forall e ls l h, In l (levels b) -> 
  (score_of pb e ls l h == structure_misfit (b_panel_weightings b) (map (fun T => nth l T []) tables) (b_targets b) (map (fun rm => nd_lampam (panel_node pb ls h rm)) (List.combine (p_pdl pb) (p_mat pb))))%Q /\
  Forall (fun w => weighting12 w /\ (sum_to 12 (fun k => nth k w 0) <= 1)%Q) (map (fun T => nth l T []) tables).
Proof.
  intros W G U e ls l h Hl. destruct (levels_facts a b W) as (_ & _ & Lw & Lt). destruct (n_thick a b W) as [_ Ht].
  assert (Lp : length (p_pdl pb) = length (b_plies b)) by (rewrite (u_rows _ _ _ _ U), map_length; apply G).
  assert (F : Forall (fun w => weighting12 w /\ (sum_to 12 (fun k => nth k w 0) <= 1)%Q) (map (fun T => nth l T []) tables)).
  { apply Forall_forall. intros w Hw. apply in_map_iff in Hw. destruct Hw as [T [<- HT]]. apply (In_nth _ _ []) in HT. destruct HT as [i [Hi <-]]. rewrite (u_tables _ _ _ _ U) in Hi.
    pose proof (u_table _ _ _ _ U i Hi) as E. pose proof (plies_three a b W i Hi) as T3. pose proof (w_weights a b W) as LW.
    pose proof (w_normalised a b W) as N. rewrite Forall_forall in N. assert (Hi' : (i < length (b_weights b))%nat) by lia. destruct (N _ (nth_In (b_weights b) [] Hi')) as [N1 _].
    assert (T1 : (1 <= Z.to_nat (nth i (b_plies b) 0%Z))%nat) by lia. apply (weightings_at _ _ _ _ _ l T1 N1 E). rewrite (u_rows _ _ _ _ U). pose proof (g_rows _ _ _ _ G) as Gr.
    rewrite (nth_map' (firstn (length (levels b))) pdl i []) by lia. rewrite firstn_length. assert (Hi2 : (i < length pdl)%nat) by lia. pose proof (g_width _ _ _ _ G _ (nth_In pdl [] Hi2)) as Gw. unfold zlen in Gw. specialize (Lt l Hl). lia. }
  split; [|exact F]. unfold score_of. rewrite (u_score _ _ _ _ U), node_lampams_nth. unfold node_score.
  set (xs := map _ (List.combine (p_pdl pb) (p_mat pb))).
  assert (Lx : length xs = length (b_plies b)) by (unfold xs; rewrite map_length, combine_len; [exact Lp|rewrite (u_mats _ _ _ _ U); exact Lp]).
  destruct (C84_node_objective (b_targets b) (map (fun T => nth l T []) tables) (b_panel_weightings b) (b_coeffs b) xs) as (q & -> & Eq).
  - rewrite Lx. apply W.
  - rewrite Lx, map_length. apply U.
  - rewrite Lx. apply W.
  - eapply Forall_impl; [|apply (w_target_range a b W)]. intros t [X _]. exact X.
  - eapply Forall_impl; [|exact F]. intros t [X _]. exact X.
  - rewrite Qred_correct. exact Eq.
Qed.

(** the objectives of the nodes lie between 0 and 4 *)
Theorem C84_score_range : forall a b pdl pb, well_given a b -> layout_given (b_cons b) (b_plies b) (b_ref b) pdl -> search_problem b pdl = Ok pb ->
  forall l1 l l2 h, levels b = l1 ++ l :: l2 -> (0 <= p_score pb l (node_lampams pb (l1 ++ [l]) h) <= 4)%Q.
Proof.
  intros a b pdl pb W G E l1 l l2 h Hl. destruct (search_set_up a b pdl pb W (g_rows _ _ _ _ G) E) as [tables U].
  destruct (levels_facts a b W) as (ND & _ & _ & _).
  assert (Il : In l (levels b)) by (rewrite Hl; apply in_app_iff; right; left; reflexivity).
  assert (ND' : NoDup (l1 ++ [l])).
  { rewrite Hl in ND. replace (l1 ++ l :: l2) with ((l1 ++ [l]) ++ l2) in ND by (rewrite <- app_assoc; reflexivity). revert ND. generalize (l1 ++ [l]). clear.
    induction l as [|x l IH]; intros N; [constructor|]. inversion N as [|? ? N1 N2]; subst. constructor; [intros X; apply N1, in_app_iff; auto|auto]. }
  pose proof (g_rows _ _ _ _ G) as Gr.
  assert (Lp : length (p_pdl pb) = length (b_plies b)) by (rewrite (u_rows _ _ _ _ U), map_length; exact Gr).
  assert (Lm : length (p_mat pb) = length (b_plies b)) by apply U.
  destruct (score_value a b pdl pb tables W G U (last (l1 ++ [l]) 0%nat) (l1 ++ [l]) l h Il) as [V F]. unfold score_of in V. fold (node_lampams pb (l1 ++ [l]) h) in V. rewrite V.
  set (xs := map _ (List.combine (p_pdl pb) (p_mat pb))) in *.
  assert (Lx : length xs = length (b_plies b)) by (unfold xs; rewrite map_length, combine_len; lia).
  destruct (w_panels a b W) as [P1 P2].
  destruct (C84_node_range (b_targets b) (map (fun T => nth l T []) tables) (b_panel_weightings b) xs) as [R1 R2]; auto; try (rewrite Lx, ?map_length; apply W || apply U).
  - eapply Forall_impl; [|apply (w_target_range a b W)]. intros t [_ X]. exact X.
  - intros x Hx. unfold xs in Hx. apply in_map_iff in Hx. destruct Hx as [rm [<- Hrm]]. apply (In_nth _ _ ([], [])) in Hrm. destruct Hrm as [i [Hi <-]]. rewrite combine_len in Hi by lia. rewrite combine_nth' by lia.
    unfold panel_node; cbn [fst snd]. pose proof (plies_three a b W i ltac:(lia)). apply (node_within _ (b_cos_sin b) (Z.to_nat (nth i (b_plies b) 0))); [lia|apply (w_trig a b W)|exact ND'|].
    rewrite (u_cons _ _ _ _ U). apply (u_mat _ _ _ _ U). lia.
  - rewrite P2 in R2. split; [exact R1|]. lra.
Qed.
Print Assumptions C84_score_range.

(** the searches find designs of allowed angles *)
Lemma search_designs a b pdl pb t : well_given a b -> layout_given (b_cons b) (b_plies b) (b_ref b) pdl ->
  search_problem b pdl = Ok pb -> beam pb (levels b) = Ok t ->
  forall d, In d (t_ss t) -> length d = length (b_plies b) /\ Forall (fun part => Forall (fun x => In x (set_of_angles (b_cons b))) (fst part ++ snd part)) d.
Proof.
  intros W G E X. destruct (search_set_up a b pdl pb W (g_rows _ _ _ _ G) E) as [tables U]. pose proof (g_rows _ _ _ _ G) as Gr.
  assert (Lp : length (p_pdl pb) = length (b_plies b)) by (rewrite (u_rows _ _ _ _ U), map_length; exact Gr).
  assert (Lm : length (p_mat pb) = length (b_plies b)) by apply U.
  destruct (k_set _ (mk_cons_consistent _ _ (w_cons a b W))) as (_ & Fa & _). rewrite Forall_forall in Fa.
  destruct (levels_facts a b W) as (_ & Ne & _). intros d Hd. rewrite <- Lp, <- (u_cons _ _ _ _ U). apply (beam_designs pb (levels b) t); auto; [lia| |].
  - intros l1 l l2 h Hl _. pose proof (C84_score_range a b pdl pb W G E l1 l l2 h Hl) as S. unfold score_of. rewrite node_lampams_nth. unfold node_lampams in S. rewrite node_lampams_nth in S. lra.
  - intros x Hx. rewrite (u_cons _ _ _ _ U) in Hx. apply Fa in Hx. destruct Hx. lia.
Qed.

Theorem C81_one_layout : forall a b pdl o,
  well_given a b -> layout_given (b_cons b) (b_plies b) (b_ref b) pdl ->
  optimise_layout b pdl = Ok (Some o) -> (o_total o < 10000000000)%Q -> delivered b o.
Proof.
  intros a b pdl o W G H B. unfold optimise_layout in H.
  destruct (search_problem b pdl) as [pb|] eqn:E1; cbn [bind] in H; [|discriminate].
  destruct (beam pb (levels b)) as [t|] eqn:E2; cbn [bind] in H; [|discriminate].
  pose proof (search_designs a b pdl pb t W G E1 E2) as Hd. pose proof (design_inputs a b pdl (t_ss t) W G Hd) as I.
  rewrite (w_save a b W) in H. apply C64_repaired in H; [|exact I]. destruct H as (d & r & Id & R & P & D & _). specialize (D B).
  destruct (Hd d Id) as [Ld Fd]. destruct (repaired_some a b pdl d r _ W G Ld Fd R D eq_refl) as (stacks & pdl' & Q & E).
  destruct (C57_angles _ _ _ _ _ _ _ _ _ _ _ _ _ _ _ _ _ _ _ _ (w_cons a b W) (w_angles a b W) Q (w_repair a b W) E) as (L & A & T & _).
  destruct (C57_repaired_design _ _ _ _ _ _ _ _ _ _ _ _ _ _ _ _ _ _ _ _ (w_cons a b W) (w_angles a b W) Q (w_repair a b W) E) as (_ & Ls & Bl & C & S & _ & N).
  pose proof (plies_three a b W) as Three. pose proof (w_ref a b W) as Hr.
  pose proof (C57_reference_guidelines _ _ _ _ _ _ _ _ _ _ _ _ _ _ _ _ _ _ _ _ (w_cons a b W) (w_angles a b W) Q (w_repair a b W) E) as RG. cbv zeta in RG.
  destruct P as (P1 & P2 & _ & P4 & _ & _ & P7). specialize (P7 D). destruct P7 as [P7 P8].
  assert (Lp : length (final_panels b) = length (b_plies b)) by (unfold final_panels; apply map_length). rewrite Lp in P7, P8.
  constructor; cbv zeta; rewrite ?P1, ?P2.
  - auto.
  - exact Bl.
  - intros j Hj. apply (C j Hj).
  - exact S.
  - intros j Hj. apply (C j Hj).
  - intros j Hj. destruct (A j Hj) as [A1 A2]. specialize (A2 (w_known a b W)). rewrite Forall_forall in *. intros x Hx. destruct (A1 x Hx) as [->|Y]; [destruct (A2 Hx)|exact Y].
  - intros Y j Hj. apply (C j Hj), Y.
  - apply RG; [intros Y; apply (w_contig a b W Y)|specialize (Three _ Hr); lia|]. destruct (w_known a b W); auto.
  - intros j Hj Nj. exact (N j Hj Nj).
  - intros Y j Hj m Hm. apply (T Y) with (j := j); auto.
    + apply (A (b_ref b) Hr). apply (w_known a b W).
    + intros ->. revert Hm. apply covered_some. destruct (C j ltac:(lia)) as (_ & -> & _). apply Three. lia.
  - rewrite P4. reflexivity.
  - exact P7.
  - destruct P8 as (pd & pc & pt & X1 & X2 & X3). intros Nh. exists pd, pc, pt. auto.
Qed.
Print Assumptions C81_one_layout.

(* ------------------------------------------------------------------ *)
(** ** all the layouts *)
Definition entry (o : report) : Q * option report := (o_total o, Some o).
Definition stopped (b : bella) (pdls : list (list (list Z))) : Prop :=
  exists before pdl after, pdls = before ++ pdl :: after /\
    Forall (fun p => exists o, optimise_layout b p = Ok (Some o) /\ ~ (o_total o == 0)%Q) before /\
    (optimise_layout b pdl = Ok None \/ (exists o, optimise_layout b pdl = Ok (Some o) /\ (o_total o == 0)%Q) /\ after <> []).

Lemma runs_spec b pdls : forall l, runs b pdls = Ok l ->
  (exists os, Forall2 (fun p o => optimise_layout b p = Ok (Some o)) pdls os /\ l = map Some (map entry os) /\
     forall i, (S i < length (map entry os))%nat -> ~ (fst (nth i (map entry os) (0%Q, None)) == 0)%Q) \/
  (exists before after, ((l = map Some (map entry before) ++ None :: after) \/ (exists o, l = map Some (map entry before) ++ Some (entry o) :: after /\ (o_total o == 0)%Q /\ after <> [])) /\
     (forall e, In e (map entry before) -> ~ (fst e == 0)%Q) /\ stopped b pdls).
Proof.
  induction pdls as [|p pdls IH]; intros l; cbn [runs].
  { intros X; injection X as <-. left. exists []. split; [constructor|]. split; [reflexivity|]. cbn. lia. }
  destruct (optimise_layout b p) as [[o|]|] eqn:E; cbn [bind]; [| |discriminate].
  2: { destruct (runs b pdls) as [l'|]; cbn [bind]; [|discriminate]. intros X; injection X as <-. right. exists [], l'. split; [left; reflexivity|]. split; [intros e []|].
       exists [], p, pdls. auto. }
  destruct (Qeq_bool (o_total o) 0) eqn:Z.
  - apply Qeq_bool_iff in Z. intros X; injection X as <-. destruct pdls as [|p' pdls'].
    + left. exists [o]. split; [repeat constructor; exact E|]. split; [reflexivity|]. cbn. lia.
    + right. exists [], (map (fun _ => None) (p' :: pdls')). split; [right; exists o; split; [reflexivity|split; [exact Z|discriminate]]|]. split; [intros e []|].
      exists [], p, (p' :: pdls'). split; [reflexivity|]. split; [constructor|]. right. split; [eauto|discriminate].
  - assert (NZ : ~ (o_total o == 0)%Q) by (intros X; apply Qeq_bool_iff in X; congruence).
    destruct (runs b pdls) as [l'|]; cbn [bind]; [|discriminate]. intros X; injection X as <-.
    destruct (IH l' eq_refl) as [(os & F & -> & N)|(before & after & L & N & St)].
    + left. exists (o :: os). split; [constructor; auto|]. split; [reflexivity|]. intros [|i] Hi; cbn [map nth fst] in *; [exact NZ|]. apply N. cbn [length] in Hi. lia.
    + right. exists (o :: before), after. split; [|split].
      * destruct L as [->|(o' & -> & L)]; [left; reflexivity|right; exists o'; split; [reflexivity|exact L]].
      * intros e [<-|He]; [exact NZ|auto].
      * destruct St as (b1 & p1 & a1 & -> & S1 & S2). exists (p :: b1), p1, a1. split; [reflexivity|]. split; [constructor; eauto|exact S2].
Qed.

(** Either every layout gave a design, and the reported one is the first of those of smallest objective, or
    the run of some layout gave none, or its objective was zero while other layouts were left,
    and no design is reported *)
Theorem C81_outcome : forall b pdls r, optimise b pdls = Ok r ->
  (exists os k o, Forall2 (fun p o => optimise_layout b p = Ok (Some o)) pdls os /\ nth_error os k = Some o /\ r = (Some o, Some (o_total o)) /\
     (forall o', In o' os -> (o_total o <= o_total o')%Q)) \/
  (r = (None, None) /\ stopped b pdls).
Proof.
  intros b pdls r. unfold optimise. destruct (runs b pdls) as [l|] eqn:E; cbn [bind]; [|discriminate]. intros H.
  destruct (runs_spec b pdls l E) as [(os & F & -> & N)|(before & after & L & N & St)].
  - left. destruct os as [|o0 os]. { vm_compute in H. discriminate. }
    destruct (C33_best_of_complete_runs_partial (option report) None (map entry (o0 :: os)) ltac:(discriminate) N) as (obj & d & E' & I & M).
    rewrite E' in H. injection H as <-. apply in_map_iff in I. destruct I as [o [Eo Io]]. unfold entry in Eo. injection Eo as <- <-.
    apply In_nth_error in Io. destruct Io as [k Hk]. exists (o0 :: os), k, o. split; [exact F|]. split; [exact Hk|]. split; [reflexivity|].
    intros o' Ho'. exact (M (entry o') (in_map entry _ _ Ho')).
  - right. split; [|exact St]. destruct L as [->|(o & -> & Z & Ne)].
    + rewrite (C33_void_result_when_a_layout_fails (option report) None (map entry before) after N) in H. injection H as <-. reflexivity.
    + pose proof (eq_trans (eq_sym H) (C33_void_result_after_early_stop (option report) None (Some o) (map entry before) (o_total o) after N Z Ne)) as X. injection X as ->. reflexivity.
Qed.
Print Assumptions C81_outcome.

(** a reported design of an objective below 1e10 has the promised properties and is the best of
    the designs found for the layouts *)
Theorem C81_reported_design : forall a b pdls o q,
  well_given a b -> (forall pdl, In pdl pdls -> layout_given (b_cons b) (b_plies b) (b_ref b) pdl) ->
  optimise b pdls = Ok (Some o, Some q) -> (q < 10000000000)%Q ->
  q = o_total o /\ delivered b o /\
  (exists pdl, In pdl pdls /\ optimise_layout b pdl = Ok (Some o)) /\
  (forall pdl, In pdl pdls -> exists o', optimise_layout b pdl = Ok (Some o') /\ (q <= o_total o')%Q).
Proof.
  intros a b pdls o q W G H B. apply C81_outcome in H. destruct H as [(os & k & o' & F & Hk & E & M)|(E & _)]; [|discriminate].
  injection E as <- ->. pose proof (F2_length _ _ _ F) as L. assert (k < length os)%nat as Kl by (apply nth_error_Some; congruence).
  pose proof (Forall2_nth' _ _ _ [] o F k ltac:(lia)) as X. rewrite (nth_error_nth os k o Hk) in X.
  assert (In (nth k pdls []) pdls) as Ip by (apply nth_In; lia).
  split; [reflexivity|]. split; [exact (C81_one_layout a b _ o W (G _ Ip) X B)|]. split; [eauto|].
  intros pdl Hp. apply (In_nth _ _ []) in Hp. destruct Hp as [j [Hj <-]]. exists (nth j os o). split; [apply (Forall2_nth' _ _ _ [] o F j Hj)|]. apply M, nth_In. lia.
Qed.
Print Assumptions C81_reported_design.

(* ------------------------------------------------------------------ *)
(** ** layouts generated by the optimiser *)
Lemma structure_given c plies ref ia pdl : structure_layout plies ia pdl -> (sym c = true -> forall r, In r pdl -> rev r = r) ->
  (ref < length plies)%nat -> Z.of_nat (i_max ia) = last plies 0 -> layout_given c plies ref pdl.
Proof.
  intros [S1 S2 S3 _ _] Y Hr M.
  assert (C : forall i, (i < length plies)%nat -> zlen (plies_of (nth i pdl [])) = nth i plies 0).
  { intros i Hi. rewrite <- (S3 i Hi), n_kept_countb. unfold countb. reflexivity. }
  constructor; auto.
  - intros r Hi. apply (In_nth _ _ []) in Hi. destruct Hi as [i [Hi <-]]. unfold zlen. rewrite S2 by lia. exact M.
  - rewrite last_is_nth, S1. intros X. pose proof (C (length plies - 1)%nat ltac:(lia)) as Hc. rewrite <- last_is_nth, <- M in Hc.
    pose proof (S2 (length plies - 1)%nat ltac:(lia)) as Hl. unfold zlen in Hc.
    assert (forall l : list Z, In dropped l -> (length (plies_of l) < length l)%nat) as D.
    { clear. induction l as [|x l IH]; cbn; [tauto|]. assert (length (plies_of l) <= length l)%nat as Q by (unfold plies_of; clear; induction l as [|y l IH]; cbn; [lia|]; destruct (negb _); cbn; lia).
      intros [->|H]; [unfold plies_of in *; cbn; lia|]. specialize (IH H). unfold plies_of in *. cbn [filter]. destruct (negb _); cbn; lia. }
    specialize (D _ X). lia.
  - intros Ys i Hi. cbv zeta. rewrite <- map_rev, (Y Ys); [reflexivity|]. apply nth_In, Hi.
Qed.

(** the complete optimisation, whatever the layouts drawn at random, when every panel of a
    symmetric laminate has an even number of plies *)
Theorem C81_generated_layouts : forall a b g ia same n events timeout pdls o q,
  well_given a b -> divided (sym (b_cons b)) g (b_plies b) ia -> Z.of_nat (i_max ia) = last (b_plies b) 0 ->
  (sym (b_cons b) = true -> i_has_middle ia = false /\ forall m, In m (b_plies b) -> Z.even m = true) ->
  (forall penalty pdl, In (penalty, pdl) events -> exists rnd, draws_ok ia rnd /\ create_initial_pdl ia (sym (b_cons b)) rnd = Ok pdl) ->
  layouts same [] n events timeout = Ok pdls ->
  optimise b pdls = Ok (Some o, Some q) -> (q < 10000000000)%Q ->
  q = o_total o /\ delivered b o /\
  (exists pdl, In pdl pdls /\ optimise_layout b pdl = Ok (Some o)) /\
  (forall pdl, In pdl pdls -> exists o', optimise_layout b pdl = Ok (Some o') /\ (q <= o_total o')%Q).
Proof.
  intros a b g ia same n events timeout pdls o q W D M Ev He Hl H B. apply (C81_reported_design a); auto.
  intros pdl Hp. apply (proj1 (C28_returned_layouts _ _ _ _ _ _ _ Hl)) in Hp. destruct Hp as [p Hp]. destruct (He p pdl Hp) as (rnd & R & E).
  pose proof (w_ref a b W) as Hr. destruct (sym (b_cons b)) eqn:Y.
  - destruct (Ev eq_refl) as [Hm Hev]. assert (In (last (b_plies b) 0) (b_plies b)) as Il by (rewrite last_is_nth; apply nth_In; lia).
    destruct (C51_symmetric_partial g (b_plies b) ia rnd pdl D R Hm) as [S1 S2]; auto; [rewrite M; auto|]. apply (structure_given _ _ _ ia); auto.
  - apply (structure_given _ _ _ ia); auto; [|congruence]. eapply C51_asymmetric_partial; eauto.
Qed.
Print Assumptions C81_generated_layouts.

(* ------------------------------------------------------------------ *)
(** ** a structure of two panels, of 8 and 12 plies *)
Definition lp_12 (s : list Z) : list Q := map (fun k => Qred (lamination_parameter cos_sin_4 s k)) (seq 0 12).
Definition third_12 : list Q := [1 # 3; 0; 0; 0; 0; 0; 0; 0; 0; 1 # 3; 0; 0]%Q.
Definition zero_12 : list Q := repeat 0%Q 12.
Definition in_plane_12 : list Q := [1 # 4; 1 # 4; 1 # 4; 1 # 4; 0; 0; 0; 0; 0; 0; 0; 0]%Q.
Definition even_12 : list Q := [1 # 8; 1 # 8; 1 # 8; 1 # 8; 0; 0; 0; 0; 1 # 8; 1 # 8; 1 # 8; 1 # 8]%Q.
Definition last_12 : list Q := [0; 0; 0; 0; 0; 0; 0; 0; 0; 0; 0; 1]%Q.
Definition bella_on (targets weights : list (list Q)) (c : cons) (plies : list Z) (ref : nat) : bella :=
  {| b_cons := c; b_strip := chain_strip (length plies); b_plies := plies; b_ref := ref; b_cos_sin := cos_sin_4; b_lampam := lp_12; b_distA := fun _ => 0%Q; b_pen10 := fun _ _ => Ok 0%Q;
     b_targets := targets; b_weights := weights;
     b_panel_weightings := all (1 # 2)%Q plies; b_coeffs := coeffs_2; b_rparams := par_mp false;
     b_local := 2; b_local_final := 2; b_global := 3; b_global_final := 2; b_save_success_rate := false |}.
Definition bella_ex (c : cons) (plies : list Z) (ref : nat) : bella := bella_on (all third_12 plies) (all even_12 plies) c plies ref.
Definition layout_1 : list (list Z) := [[1; -1; 2; 3; -1; 4; 4; -1; 3; 2; -1; 1]; [1; 2; 3; 4; 5; 6; 6; 5; 4; 3; 2; 1]].
Definition layout_2 : list (list Z) := [[1; 2; 3; -1; -1; 4; 4; -1; -1; 3; 2; 1]; [1; 2; 3; 4; 5; 6; 6; 5; 4; 3; 2; 1]].

Definition weights_ok (w : list Q) : Prop := weighting12 w /\ (sum_to 12 (fun k => nth k w 0) == 1)%Q.
Lemma ex_given_on t w1 w2 c : weights_ok w1 -> weights_ok w2 -> length t = 12%nat -> Forall (fun x => -1 <= x <= 1)%Q t ->
  mk_cons (args_re true true true) = Ok c -> well_given (args_re true true true) (bella_on (all t [8; 12]) [w1; w2] c [8; 12] 0).
Proof.
  intros W1 W2 T Rg E. pose proof E as E'. vm_compute in E'. injection E' as <-. constructor; try reflexivity; try exact E; cbn [bella_on b_cons b_plies b_ref b_targets b_weights b_panel_weightings].
  - cbn; intuition discriminate.
  - repeat constructor.
  - repeat constructor; discriminate.
  - cbn; lia.
  - intros _ [|[|i]] Hi; try reflexivity. cbn in Hi. lia.
  - repeat constructor; auto.
  - constructor; [exact W1|]. constructor; [exact W2|constructor].
  - split; [repeat constructor; discriminate|reflexivity].
  - intros _. cbn. split; [lia|reflexivity].
  - left; reflexivity.
  - intros x i. apply cos_sin_4_bound.
Qed.
Ltac w12 := split; [split; [reflexivity|repeat constructor; discriminate]|reflexivity].
Lemma ex_given c : mk_cons (args_re true true true) = Ok c -> well_given (args_re true true true) (bella_ex c [8; 12] 0).
Proof. intros E. apply (ex_given_on third_12 even_12 even_12); try exact E; try reflexivity; [w12|w12|]. repeat constructor; discriminate. Qed.
Lemma ex_layouts c pdl : In pdl [layout_1; layout_2] -> layout_given c [8; 12] 0 pdl.
Proof.
  intros [<-|[<-|[]]]; (constructor; [reflexivity|intros r [<-|[<-|[]]]; reflexivity|unfold dropped; cbn; lia|reflexivity|intros _ [|[|i]] Hi; try reflexivity; cbn in Hi; lia]).
Qed.

(** hypotheses of [C81_reported_design] *)
Example C81_example : exists c o q, well_given (args_re true true true) (bella_ex c [8; 12] 0) /\
  (forall pdl, In pdl [layout_1; layout_2] -> layout_given c [8; 12] 0 pdl) /\
  optimise (bella_ex c [8; 12] 0) [layout_1; layout_2] = Ok (Some o, Some q) /\ (q < 10000000000)%Q /\
  o_ss o = [[90; 0; -45; 45; 45; -45; 0; 90]; [90; 0; 0; -45; 0; 45; 45; 0; -45; 0; 0; 90]] /\
  (exists o', optimise_layout (bella_ex c [8; 12] 0) layout_1 = Ok (Some o') /\ (q < o_total o')%Q).
Proof.
  destruct (mk_cons (args_re true true true)) as [c|] eqn:E; [|vm_compute in E; discriminate]. exists c. do 2 eexists. split; [apply ex_given, E|]. split; [apply ex_layouts|].
  vm_compute in E. injection E as <-. split; [vm_compute; reflexivity|]. split; [reflexivity|]. split; [reflexivity|].
  eexists. split; [vm_compute; reflexivity|reflexivity].
Qed.

(** hypotheses of [C81_generated_layouts] *)
Example C81_generated_example : exists c pdls o q,
  well_given (args_re true true true) (bella_ex c [8; 12] 0) /\ divided true default_sizes [8; 12] demo_ini /\ Z.of_nat (i_max demo_ini) = last [8; 12] 0 /\
  (i_has_middle demo_ini = false /\ forall m, In m [8; 12] -> Z.even m = true) /\
  (forall penalty pdl, In (penalty, pdl) [((1 # 2)%Q, layout_1)] -> exists rnd, draws_ok demo_ini rnd /\ create_initial_pdl demo_ini true rnd = Ok pdl) /\
  layouts (fun _ _ => true) [] 1 [((1 # 2)%Q, layout_1)] true = Ok pdls /\
  optimise (bella_ex c [8; 12] 0) pdls = Ok (Some o, Some q) /\ (q < 10000000000)%Q.
Proof.
  destruct (mk_cons (args_re true true true)) as [c|] eqn:E; [|vm_compute in E; discriminate]. exists c. do 3 eexists. split; [apply ex_given, E|].
  destruct C51_example as (D & R & L). split; [exact D|]. split; [reflexivity|]. split; [split; [reflexivity|intros m [<-|[<-|[]]]; reflexivity]|].
  split; [intros penalty pdl [X|[]]; injection X as <- <-; exists demo_rnd; split; [exact R|exact L]|]. split; [vm_compute; reflexivity|].
  vm_compute in E. injection E as <-. split; [vm_compute; reflexivity|reflexivity].
Qed.

(** a design that meets its targets exactly is lost if other layouts were left to be tried *)
Theorem C81_early_stop_refuted : exists a b o,
  well_given a b /\ (forall pdl, In pdl [layout_1; layout_2] -> layout_given (b_cons b) (b_plies b) (b_ref b) pdl) /\
  optimise b [layout_1] = Ok (Some o, Some (o_total o)) /\ (o_total o == 0)%Q /\ delivered b o /\
  optimise b [layout_1; layout_2] = Ok (None, None).
Proof.
  destruct (mk_cons (args_re true true true)) as [c|] eqn:E; [|vm_compute in E; discriminate]. exists (args_re true true true), (bella_on (all zero_12 [8; 12]) [in_plane_12; last_12] c [8; 12] 0).
  assert (W : well_given (args_re true true true) (bella_on (all zero_12 [8; 12]) [in_plane_12; last_12] c [8; 12] 0)).
  { apply ex_given_on; try exact E; try reflexivity; [w12|w12|]. repeat constructor; discriminate. }
  assert (R : exists o, optimise (bella_on (all zero_12 [8; 12]) [in_plane_12; last_12] c [8; 12] 0) [layout_1] = Ok (Some o, Some (o_total o)) /\ (o_total o == 0)%Q).
  { pose proof E as E'. vm_compute in E'. injection E' as <-. match goal with |- context [optimise ?x ?y] => let v := eval vm_compute in (optimise x y) in match v with Ok (Some ?o, _) => exists o end end. split; [vm_compute; reflexivity|reflexivity]. }
  destruct R as (o & R1 & R2). exists o. split; [exact W|]. split; [apply ex_layouts|]. split; [exact R1|]. split; [exact R2|]. split.
  - apply (C81_reported_design _ _ _ _ _ W) in R1; [apply R1| |rewrite R2; reflexivity]. intros pdl Hp. apply ex_layouts. destruct Hp as [<-|[]]. left; reflexivity.
  - clear W o R1 R2. vm_compute in E. injection E as <-. vm_compute. reflexivity.
Qed.
Print Assumptions C81_early_stop_refuted.
