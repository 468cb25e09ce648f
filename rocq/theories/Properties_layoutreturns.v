(* Properties_layoutreturns.v - C98: the run of a layout returns a design. *)
From Coq Require Import Lqa Sorted Permutation.
From Verif Require Import Base Uniq Constraints Guidelines SpecGuidelines GuidelinesProofs ConstraintsProofs GateProofs Properties_guidelines Divers Spacing Strip StripProofs Format FormatProofs
  Search Objectives Repair10 Repair10Proofs RepairDiso RepairDisoProofs Membrane MembraneProofs Flexural FlexuralProofs Abdalla10 SpecRedesign Redesign RedesignProofs RedesignThick RepairMp RepairMpProofs
  Properties_format Properties_repair10 Properties_repairdiso Properties_membrane Properties_flexural Properties_redesign Properties_repairmp Properties_repairss RedesignRunsProofs Properties_redesignruns
  Properties_repairreturns.
Local Open Scope Z_scope.

(* ---------------- the angles of a table ---------------- *)
Section Angles.
Variable P : Z -> Prop.
Hypothesis P_drop : P (-1).
Definition filled (sst : list (list Z)) : Prop := Forall (Forall P) sst.
Lemma upd_filled v r : P v -> Forall P r -> forall col, Forall P (upd col v r).
Proof. intros V F. induction F as [|x r X F IH]; intros [|col]; cbn; constructor; auto. Qed.
Lemma ref_columns_filled t ref : Forall P t -> forall n col k sst sst', ref_columns n col k t ref sst = Ok sst' -> filled sst -> filled sst'.
Proof.
  intros Ft. induction n as [|n IH]; intros col k sst sst'; cbn [ref_columns]; [intros E; injection E as <-; auto|].
  destruct (row sst ref) as [r|]; cbn [bind]; [|discriminate]. destruct (Format.kept (nth col r (-1))); [|apply IH].
  unfold row. destruct (nth_error t k) as [v|] eqn:E; cbn [bind]; [|discriminate]. intros H F. apply IH in H; [exact H|].
  apply nth_error_In in E. rewrite Forall_forall in Ft. specialize (Ft v E). unfold filled in *. apply Forall_forall. intros x Hx. apply in_map_iff in Hx. destruct Hx as [y [<- Hy]].
  rewrite Forall_forall in F. specialize (F y Hy). destruct (Format.kept (nth col y (-1))); [apply upd_filled; auto|exact F].
Qed.
Lemma masked_filled g : Forall P g -> forall p, Forall P (masked g p).
Proof.
  unfold masked. induction g as [|x g IH]; intros F [|y p]; try (constructor; fail). inversion F; subst. cbn [List.combine map fst snd]. constructor; [destruct (Format.kept y); auto|apply IH; auto].
Qed.
Lemma convert_filled n pdl before g t ref sst : rect n pdl -> pdl <> [] -> get before (-1) = Ok g -> length g = n -> Forall P g -> Forall P t ->
  convert_ss_ref_to_reduced_sst t ref pdl before = Ok sst -> filled sst.
Proof.
  intros R Ne G L Fg Ft. unfold convert_ss_ref_to_reduced_sst, convert_ss_to_sst. rewrite G. cbn [bind]. rewrite (guide_to_sst_masked n) by assumption. cbn [bind].
  intros H. apply ref_columns_filled in H; [exact H|exact Ft|]. apply Forall_forall. intros r Hr. apply in_map_iff in Hr. destruct Hr as [p [<- _]]. apply masked_filled, Fg.
Qed.
End Angles.

Lemma filled_plies P sst j : filled P sst -> Forall P (plies_of (nth j sst [])).
Proof.
  intros F. destruct (Nat.lt_ge_cases j (length sst)) as [H|H]; [|rewrite nth_overflow by lia; constructor].
  unfold filled in F. rewrite Forall_forall in F. specialize (F _ (nth_In sst [] H)). rewrite Forall_forall in *. intros x Hx. apply filter_In in Hx. apply F, Hx.
Qed.

(** an angle of the set, or 0 *)
Definition known_angle (c : cons) (x : Z) : Prop := x = 0 \/ In x (set_of_angles c).
Section Table.
Variables (c : cons) (cos_sin : Z -> nat -> Q) (lampam : list Z -> list Q) (distA : vec -> Q).
Variables (targets weightsA weightsD : list (list Q)) (plies : list Z) (ref : nat) (p : rparams) (pdl : list (list Z)).
Hypothesis K : consistent c.
Hypothesis Hset : ~ In dropped (set_of_angles c).
Hypothesis Hobj : forall u, (oop_objective cos_sin (vec_from 0 (nth ref weightsD [])) (vec_from 8 (nth ref targets [])) u <= 10000000000)%Q.

(** the table of a repaired reference panel only has plies of the laminate of the thickest panel
    and of the repaired laminate *)
Lemma reference_filled ss lps sst1 ss1 : repairable c plies ref pdl ss -> bal c = true \/ rule_10_percent c = false ->
  Forall (fun x => In x (set_of_angles c)) (last ss []) ->
  repair_reference_panel c cos_sin lampam distA targets weightsA weightsD ref p pdl ss = Ok (true, lps, sst1, ss1) -> filled (fun x => x = -1 \/ known_angle c x) sst1.
Proof.
  intros I Kn Fl H0. pose proof (reference_panel c cos_sin lampam distA targets weightsA weightsD plies ref p pdl K Hset Hobj _ _ _ _ _ I H0) as Rp. cbn [repaired] in Rp. destruct Rp as (_ & _ & Ess & [Ft Fn] & _ & _ & _). cbv zeta in Ft, Fn.
  specialize (Fn Kn). destruct I as [I1 I2 I3 [I4 I4'] I5 I6 I7 I8 [I9 I9'] I10]. revert H0. unfold repair_reference_panel.
  assert (Er : row ss ref = Ok (nth ref ss [])) by (unfold row; rewrite (nth_error_nth' ss []) by lia; reflexivity). rewrite Er. cbn [bind].
  destruct (row targets ref) as [target|] eqn:Et; cbn [bind]; [|discriminate]. destruct (row weightsA ref) as [wA|]; cbn [bind]; [|discriminate]. destruct (row weightsD ref) as [wD|] eqn:Ed; cbn [bind]; [|discriminate].
  assert (nth ref targets [] = target) as Xt by (unfold row in Et; destruct (nth_error targets ref) eqn:E; [injection Et as <-; apply nth_error_nth, E|discriminate]).
  assert (nth ref weightsD [] = wD) as Xd by (unfold row in Ed; destruct (nth_error weightsD ref) eqn:E; [injection Ed as <-; apply nth_error_nth, E|discriminate]).
  rewrite Xt, Xd in Hobj. cbv zeta.
  destruct (repair_10_bal_all _ _ _ _ _ _) as [[s0 q0]|] eqn:E1; cbn [bind fst snd]; [|discriminate].
  destruct (repair_membrane _ _ _ _ _ _ _ _ _ _ _) as [l|] eqn:E2; cbn [bind]; [|discriminate].
  destruct (repair_diso_contig_list _ _ _) as [[[[s inward] outward] k]|] eqn:E3; cbn [bind]; [|discriminate].
  destruct (convert_ss_ref_to_reduced_sst s ref pdl ss) as [sst|] eqn:E4; cbn [bind]; [|discriminate].
  destruct outward; cbn [negb]; [|intros E; discriminate E].
  destruct (repair_flexural _ _ _ _ _ _ _ _ _) as [t|] eqn:E5; cbn [bind]; [|discriminate].
  destruct (convert_ss_ref_to_reduced_sst t ref pdl (convert_sst_to_ss sst)) as [sst2|] eqn:E6; cbn [bind]; [|discriminate].
  destruct (check_lay_up_rules _ _ _ _ _ _ _ _) as [[]|] eqn:E7; cbn [bind]; [|discriminate].
  destruct (row (convert_sst_to_ss sst2) ref) as [back|] eqn:E8; cbn [bind]; [|discriminate].
  unfold differs. destruct (list_eq_dec Z.eq_dec back t) as [->|]; cbn [negb guard bind]; [|discriminate].
  intros E. injection E as _ <- X. rewrite <- X in Ft, Fn.
  assert (Hb : nth ref (convert_sst_to_ss sst2) [] = t) by (unfold row in E8; destruct (nth_error (convert_sst_to_ss sst2) ref) eqn:E; [injection E8 as <-; apply nth_error_nth, E|discriminate]).
  rewrite Hb in Ft, Fn. clear X Hb.
  set (A := fun x => x = 0 \/ In x (set_of_angles c)).
  destruct (k_set c K) as (_ & _ & Kng & _ & K10).
  assert (A0 : A 0) by now left. assert (Aset : forall a, In a (set_of_angles c) -> A a) by (intros; now right).
  assert (Aneg : forall a, A a -> a <> 90 -> A (- a)) by (intros a [->|Ha] Na; [now left|right; auto]).
  assert (A10 : rule_10_percent c = true -> A 90 /\ A 45 /\ A (-45)) by (intros R; destruct (K10 R) as (_ & B1 & B2 & B3); unfold A; auto).
  apply (repair_all_P c cos_sin distA A A0 Aset Aneg A10) in E1; [|eapply Forall_impl; [|exact I10]; intros; apply Aset; assumption].
  pose proof (membrane_P c cos_sin distA A A0 Aset Aneg A10 _ _ _ _ _ _ _ _ _ E1 E2) as G.
  apply (repair_list_P c (placed c)) in E3; [|now right; left|].
  2: { intros u q Hu. destruct (G _ Hu) as [F1 F2]. cbn [fst snd] in *. split; [exact F1|]. eapply Forall_impl; [|exact F2]. intros; now right. }
  destruct E3 as [_ Ps].
  apply C36_flexural_partial in E5; [|exact Ps|intros; apply Hobj]. destruct E5 as (Pt & _).
  set (P := fun x => x = -1 \/ known_angle c x).
  assert (Gt : Forall P t).
  { rewrite Forall_forall in *. intros x Hx. destruct (Ft x Hx) as [->|Y]; [destruct (Fn Hx)|right; exact Y]. }
  assert (Gs : Forall P s) by (rewrite Forall_forall in *; intros x Hx; apply Gt; eapply Permutation_in; [apply Permutation_sym; exact Pt|exact Hx]).
  assert (Gl : Forall P (last ss [])) by (eapply Forall_impl; [|exact Fl]; intros x Hx; right; right; exact Hx).
  set (n := Z.to_nat (last plies 0)).
  assert (Hn : 0 <= last plies 0) by (rewrite <- I9; unfold zlen; lia).
  assert (R : rect n pdl) by (intros r Hr; specialize (I5 r Hr); unfold zlen, n in *; lia).
  assert (Ne : pdl <> []) by (intros ->; cbn in I4; lia). assert (Nes : ss <> []) by (intros ->; cbn in I4'; lia).
  assert (D1 : P (-1)) by now left.
  pose proof (convert_filled P D1 n pdl ss (last ss []) s ref sst R Ne (get_last [] ss Nes) ltac:(unfold zlen, n in *; lia) Gl Gs E4) as F1.
  assert (Nt : ~ In (-1) s).
  { intros Y. apply (Permutation_in (l' := t)) in Y; [|apply Permutation_sym; exact Pt || exact Pt]. rewrite Forall_forall in Ft. destruct (Ft _ Y) as [Z|[Z|Z]]; try discriminate. exact (Hset Z). }
  pose proof (convert_mask n pdl ss (last ss []) s ref sst R Ne (get_last [] ss Nes) ltac:(unfold zlen, n in *; lia) I9' Nt E4) as M1.
  assert (Nst : sst <> []) by (intros ->; apply mask_len in M1; destruct pdl; [congruence|discriminate]).
  assert (G2 : get (convert_sst_to_ss sst) (-1) = Ok (last (convert_sst_to_ss sst) [])) by (apply get_last; unfold convert_sst_to_ss; destruct sst; [congruence|discriminate]).
  assert (Ml : map Format.kept (last sst []) = map Format.kept (last pdl [])).
  { rewrite <- (last_map (map Format.kept) sst [] []), <- (last_map (map Format.kept) pdl [] []) by assumption. unfold mask in M1. rewrite M1. reflexivity. }
  assert (Ll : length (last sst []) = length (last pdl [])) by (apply (f_equal (@length _)) in Ml; rewrite !map_length in Ml; exact Ml).
  assert (Nl : ~ In (-1) (last sst [])) by (apply kept_all; rewrite Ml, Ll; apply kept_all; exact I6).
  assert (El : last (convert_sst_to_ss sst) [] = last sst []).
  { unfold convert_sst_to_ss. rewrite (last_map (filter Format.kept) sst [] []) by exact Nst. apply filter_kept_all, Nl. }
  rewrite El in G2.
  assert (Lp : length (last pdl []) = n) by (apply R; destruct (exists_last Ne) as [u [x ->]]; rewrite last_last; apply in_or_app; right; now left).
  refine (convert_filled P D1 n pdl _ _ t ref sst2 R Ne G2 ltac:(lia) _ Gt E6).
  unfold filled in F1. rewrite Forall_forall in F1. apply F1. destruct (exists_last Nst) as [u [x ->]]. rewrite last_last. apply in_or_app; right; now left.
Qed.
End Table.

From Verif Require Properties_moments Properties_search.
From Verif Require Import Stiffness Final Properties_final Properties_finalreturns Moments Beam Levels Pipeline MomentsProofs BeamProofs Properties_beam Properties_pipeline Properties_guide.
(** whatever the outcome, success or failure of one of the three stages: the returned stacks have
    the ply counts of the panels and allowed angles *)
Theorem C98_returned_stacks : forall a c st cos_sin lampam distA targets weights weightsA weightsD panel_weightings plies ref p pdl ss done ss' sst' pdl' stage,
  mk_cons a = Ok c -> ~ In dropped (set_of_angles c) -> repairable c plies ref pdl ss -> objective_bounded cos_sin targets weightsD ref ->
  bal c = true \/ rule_10_percent c = false ->
  (forall j, (j < length plies)%nat -> zlen (plies_of (nth j pdl [])) = nth j plies 0) ->
  (forall j, (j < length plies)%nat -> zlen (nth j ss []) = nth j plies 0 /\ Forall (fun x => In x (set_of_angles c)) (nth j ss [])) ->
  repair_mp c st cos_sin lampam distA targets weights weightsA weightsD panel_weightings plies ref p pdl ss = Ok (done, ss', sst', pdl', stage) ->
  length ss' = length plies /\
  forall j, (j < length plies)%nat -> zlen (nth j ss' []) = nth j plies 0 /\ Forall (fun x => x = 0 \/ In x (set_of_angles c)) (nth j ss' []).
Proof.
  intros a c st cos_sin lampam distA targets weights weightsA weightsD pw plies ref p pdl ss done ss' sst' pdl' stage Ha Hset I Hobj Kn Hl Hs H.
  pose proof (mk_cons_consistent a c Ha) as K. pose proof (i_ref _ _ _ _ _ I) as Hr. pose proof (i_panels _ _ _ _ _ I) as [Lpdl Lss].
  destruct done.
  { destruct (C57_angles _ _ _ _ _ _ _ _ _ _ _ _ _ _ _ _ _ _ _ _ Ha Hset I Hobj H) as (L & A & _).
    destruct (C57_repaired_design _ _ _ _ _ _ _ _ _ _ _ _ _ _ _ _ _ _ _ _ Ha Hset I Hobj H) as (_ & _ & _ & C & _).
    split; [exact L|]. intros j Hj. split; [apply C, Hj|]. destruct (A j Hj) as [A1 A2]. specialize (A2 Kn). rewrite Forall_forall in *. intros x Hx. destruct (A1 x Hx) as [->|Y]; [destruct (A2 Hx)|exact Y]. }
  unfold repair_mp in H. revert H.
  destruct (repair_reference_panel _ _ _ _ _ _ _ _ _ _ _) as [[[[d1 lps1] sst1] ss1]|] eqn:E1; cbn [bind]; [|discriminate].
  pose proof (reference_panel c cos_sin lampam distA targets weightsA weightsD plies ref p pdl K Hset Hobj _ _ _ _ _ I E1) as Rp.
  destruct d1; cbn [negb].
  2: { cbn [Properties_repairmp.repaired] in Rp. subst ss1. destruct (convert_ss_to_sst _ _) as [s|]; cbn [bind]; [|discriminate]. intros X. injection X as <- _ _ _. split; [exact Lss|].
       intros j Hj. destruct (Hs j Hj) as [A B]. split; [exact A|]. eapply Forall_impl; [|exact B]. auto. }
  assert (Fl : Forall (fun x => In x (set_of_angles c)) (last ss [])).
  { rewrite Properties_pipeline.last_is_nth, Lss. apply Hs. lia. }
  pose proof (reference_filled c cos_sin lampam distA targets weightsA weightsD plies ref p pdl K Hset Hobj _ _ _ _ I Kn Fl E1) as F1.
  destruct (repaired_design c lampam plies ref pdl ss lps1 sst1 ss1 I Rp) as [D Er].
  destruct Rp as (M & Bl & Ess & Ft & Pt & Ck & Lr). cbv zeta in *. pose proof (mask_len M) as L1.
  assert (Lss1 : length ss1 = length plies) by (rewrite Ess, map_length; lia).
  assert (N1 : forall j, (j < length plies)%nat -> nth j ss1 [] = plies_of (nth j sst1 [])).
  { intros j Hj. rewrite Ess, (nth_indep _ [] (plies_of [])) by (rewrite map_length; lia). apply map_nth. }
  assert (Known : forall r, Forall (fun x => x = -1 \/ known_angle c x) (plies_of r) -> Forall (fun x => x = 0 \/ In x (set_of_angles c)) (plies_of r)).
  { intros r F. rewrite Forall_forall in *. intros x Hx. destruct (F x Hx) as [->|Y]; [|exact Y]. apply filter_In in Hx. destruct Hx as [_ Hx]. discriminate Hx. }
  assert (S1 : forall j, (j < length plies)%nat -> zlen (nth j ss1 []) = nth j plies 0 /\ Forall (fun x => x = 0 \/ In x (set_of_angles c)) (nth j ss1 [])).
  { intros j Hj. rewrite (N1 j Hj). split; [rewrite <- (Hl j Hj); unfold zlen; rewrite !plies_kept, (mask_count _ _ (mask_nth _ _ j M)); reflexivity|apply Known, filled_plies, F1]. }
  destruct (row ss1 ref) as [ss_ref|] eqn:E2; cbn [bind]; [|discriminate].
  destruct (thin_table _ _ _) as [thin|] eqn:T1; cbn [bind]; [|discriminate].
  destruct (repair_thick_to_thin _ _ _ _ _ _ _ _ _ _ _ _ _) as [[d2 [[sst2 lps2] ss2]]|] eqn:E3; cbn [bind]; [|discriminate].
  destruct (C37_thick_to_thin_partial _ _ _ _ _ _ _ _ _ _ _ _ _ _ _ _ _ _ _ D T1 E3) as (F2 & S2).
  destruct d2; cbn [negb].
  2: { specialize (F2 eq_refl). injection F2 as -> -> ->. destruct (convert_ss_to_sst _ _) as [s|]; cbn [bind]; [|discriminate]. intros X. injection X as <- _ _ _. auto. }
  destruct (row ss2 ref) as [r2|]; cbn [bind]; [|discriminate]. destruct (differs r2 ss_ref); cbn [guard bind]; [discriminate|].
  destruct (thick_table _ _ _) as [thick|] eqn:T2; cbn [bind]; [|discriminate].
  destruct (repair_thin_to_thick _ _ _ _ _ _ _ _ _ _ _ _ _) as [[d3 [[sst3 lps3] ss3]]|] eqn:E4; cbn [bind]; [|discriminate].
  destruct (thick_out _ _ _ _ _ _ _ _ _ _ _ _ _ _ _ _ _ _ _ E4) as [F3 _].
  destruct d3; cbn [negb].
  { destruct (row ss3 ref) as [r3|]; cbn [bind]; [|discriminate]. destruct (differs r3 ss_ref); cbn [guard bind]; [discriminate|].
    destruct (ply_counts _ _ _) as [[]|]; cbn [bind]; [|discriminate]. intros X. injection X as X. discriminate. }
  destruct (convert_ss_to_sst ss3 pdl) as [s|]; cbn [bind]; [|discriminate]. intros X. injection X as <- _ _ _. rewrite (F3 eq_refl).
  destruct (S2 eq_refl) as ((_ & _ & Ls2) & Kp & Tn). split; [lia|].
  assert (Q2 : forall k j, (j + k = ref)%nat -> Forall (fun x => x = -1 \/ known_angle c x) (nth j sst2 [])).
  { induction k as [|k IH]; intros j Hj.
    - replace j with ref by lia. destruct (Kp ref (le_n _)) as (-> & _). unfold filled in F1. rewrite Forall_forall in F1. apply F1, nth_In. lia.
    - specialize (IH (S j) ltac:(lia)). destruct (Tn j ltac:(lia)) as [(Dr & _) _]. cbv zeta in Dr. clear - Dr IH. revert IH. unfold drops_from in Dr. induction Dr as [|x y l m E Dr IHd]; intros F; [constructor|].
      inversion F as [|? ? A B]; subst. constructor; [|apply IHd, B]. destruct E as [->| ->]; [exact A|left; reflexivity]. }
  intros j Hj. destruct (Nat.le_gt_cases ref j) as [J|J].
  - destruct (Kp j J) as (_ & _ & ->). auto.
  - destruct (Tn j J) as [(_ & _ & Z & _) ->]. cbv zeta in Z. split; [exact Z|]. apply Known. specialize (Q2 (ref - j)%nat j ltac:(lia)). rewrite Forall_forall in *. intros x Hx. apply filter_In in Hx. apply Q2, Hx.
Qed.
Print Assumptions C98_returned_stacks.

(* ---------------- the designs of the search give stacks ---------------- *)
Lemma mirrored_half (r : list Z) k : (length r = k + k)%nat -> map Format.kept r = rev (map Format.kept r) -> (length (filter Format.kept r) = 2 * countb Format.kept (firstn k r))%nat.
Proof.
  intros L E. assert (C : forall l : list Z, length (filter Format.kept l) = length (filter (fun b : bool => b) (map Format.kept l))).
  { induction l as [|x l IH]; cbn; [reflexivity|]. destruct (Format.kept x); cbn; rewrite IH; reflexivity. }
  assert (R : forall l : list bool, length (filter (fun b => b) (rev l)) = length (filter (fun b => b) l)).
  { induction l as [|x l IH]; cbn; [reflexivity|]. rewrite filter_app, app_length, IH. destruct x; cbn; lia. }
  assert (S : map Format.kept (skipn k r) = rev (map Format.kept (firstn k r))).
  { rewrite <- (firstn_skipn k r) in E. rewrite map_app, rev_app_distr in E. set (A := map Format.kept (firstn k r)) in *. set (B := map Format.kept (skipn k r)) in *.
    assert (LA : length A = k) by (unfold A; rewrite map_length, firstn_length; lia). assert (LB : length B = k) by (unfold B; rewrite map_length, skipn_length; lia).
    apply (f_equal (skipn k)) in E. rewrite !skipn_app, ?rev_length, LA, LB, Nat.sub_diag in E. rewrite (skipn_all2 A), (skipn_all2 (rev B)) in E by (rewrite ?rev_length; lia). exact E. }
  rewrite <- (firstn_skipn k r) at 1. rewrite filter_app, app_length, (C (skipn k r)), S, R, <- C. unfold countb. lia.
Qed.

Lemma search_stacks a b pdl pb t : well_given a b -> layout_given (b_cons b) (b_plies b) (b_ref b) pdl -> sym (b_cons b) = true ->
  Z.even (nth (b_ref b) (b_plies b) 0) = true ->
  (forall j, (j < length (b_plies b))%nat -> zlen (plies_of (nth j pdl [])) = nth j (b_plies b) 0) ->
  (forall r x, In r pdl -> In x r -> -1 <= x) ->
  search_problem b pdl = Ok pb -> beam pb (levels b) = Ok t ->
  forall d, In d (t_ss t) -> length d = length (b_plies b) /\
    exists stacks, Forall2 (fun pp s => joined (b_cons b) (fst pp) (snd pp) s) (List.combine (final_panels b) d) stacks.
Proof.
  intros W G Sy Ev Hc Hx E X d Hd. destruct (Properties_guide.reached a b pdl pb t W G E X d Hd) as [h [R ->]].
  destruct (search_set_up a b pdl pb W (g_rows _ _ _ _ G) E) as [tables U].
  destruct (n_thick a b W) as [T3 Tl]. pose proof (g_rows _ _ _ _ G) as Gr. pose proof (w_ref a b W) as Hr.
  assert (Lp : length (p_pdl pb) = length (b_plies b)) by (rewrite (u_rows _ _ _ _ U), map_length; exact Gr).
  assert (Lm : length (p_mat pb) = length (b_plies b)) by apply U.
  pose proof (reach_length _ _ _ R) as Lh.
  assert (El : levels b = seq 0 (n_half (n_thickest b))) by (unfold levels, ply_order; rewrite Sy; reflexivity).
  assert (Ln : length (levels b) = n_half (n_thickest b)) by (rewrite El; apply seq_length).
  assert (Even : forall j, (j < length (b_plies b))%nat -> Z.even (nth j (b_plies b) 0) = true) by (intros j Hj; rewrite (w_parity a b W Sy j Hj); exact Ev).
  assert (EvT : n_thickest b = (n_half (n_thickest b) + n_half (n_thickest b))%nat).
  { pose proof (Even (length (b_plies b) - 1)%nat ltac:(lia)) as Y. rewrite <- last_is_nth, <- Tl in Y. apply Z.even_spec in Y. destruct Y as [k Hk]. pose proof (n_half_spec (n_thickest b)). lia. }
  assert (L : length (ss_of pb (levels b) h) = length (b_plies b)) by (unfold ss_of; rewrite map_length, combine_length; lia).
  split; [exact L|].
  assert (P : forall i, (i < length (b_plies b))%nat -> exists s, nth i (ss_of pb (levels b) h) ([], []) = (s, []) /\ zlen (s ++ rev s) = nth i (b_plies b) 0).
  { intros i Hi. set (row := nth i (p_pdl pb) []).
    assert (Er : row = firstn (length (levels b)) (nth i pdl [])) by (unfold row; rewrite (u_rows _ _ _ _ U); apply nth_map'; lia).
    assert (Hi2 : (i < length pdl)%nat) by lia. pose proof (g_width _ _ _ _ G _ (nth_In pdl [] Hi2)) as Gw. unfold zlen in Gw.
    assert (Lr : length row = length (levels b)) by (rewrite Er, firstn_length; lia).
    exists (selected h row). split.
    - unfold ss_of. match goal with |- context [map ?f (List.combine (p_pdl pb) (p_mat pb))] => rewrite (nth_indep _ ([], []) (f ([], []))) by (rewrite map_length, combine_length; lia); rewrite (map_nth f) end.
      cbv beta. rewrite combine_nth' by lia. unfold panel_node. cbn [fst snd]. rewrite (u_cons _ _ _ _ U), Sy.
      replace (levels b) with (seq 0 (length row)) at 1 2 by (rewrite Lr, Ln; symmetry; exact El). 
      destruct (search_sym row _ (nth i (p_mat pb) []) h node0 (u_mat _ _ _ _ U i Hi)) as (S1 & S2 & _); [lia| |].
      { intros x Ix. rewrite Er in Ix. apply (Hx (nth i pdl [])); [apply nth_In; lia|]. rewrite <- (firstn_skipn (length (levels b)) (nth i pdl [])). apply in_app_iff. left; exact Ix. }
      fold row. rewrite S1, S2. reflexivity.
    - unfold zlen. rewrite app_length, rev_length, selected_length by lia.
      assert (M : map Format.kept (nth i pdl []) = rev (map Format.kept (nth i pdl []))).
      { apply (mirror_mask _ (nth i pdl []) eq_refl), (g_mirror _ _ _ _ G Sy i Hi2). }
      pose proof (mirrored_half (nth i pdl []) (length (levels b)) ltac:(lia) M) as C. pose proof (Hc i Hi) as C2. unfold zlen in C2. rewrite plies_kept in C2. rewrite <- Er in C. unfold countb in C.
      rewrite ?C in C2. unfold countb. lia. }
  exists (map (fun part => fst part ++ rev (fst part)) (ss_of pb (levels b) h)).
  assert (Hm : forall n, In n (b_plies b) -> f_middle (panel_of (b_cons b) n) = false).
  { intros n Hn. apply (In_nth _ _ 0) in Hn. destruct Hn as [i [Hi <-]]. cbn. rewrite Sy, <- Z.negb_even, (Even i Hi). reflexivity. }
  unfold final_panels. set (d := ss_of pb (levels b) h) in *. clearbody d. clear - P Hm L Sy. revert d L P. induction (b_plies b) as [|n l IH]; intros [|q d] L P; try discriminate; [constructor|].
  cbn [map List.combine]. constructor.
  - destruct (P 0%nat ltac:(cbn; lia)) as (s & Eq & Z). cbn [nth] in Eq, Z. subst q. cbn [fst snd]. split; [exact Z|]. split; [congruence|]. split; [reflexivity|]. intros _ Y. rewrite Hm in Y by (left; reflexivity). discriminate.
  - apply IH; [intros m Im; apply Hm; right; exact Im|cbn in L; lia|]. intros i Hi. destruct (P (S i) ltac:(cbn; lia)) as (s & Eq & Z). exists s. auto.
Qed.

(** The run of a layout, for a symmetric structure of even panels. Once the search has found its
    designs and the laminates of the reference panel are in reach of the repair, every design is
    repaired or reported as not repairable, and as soon as one is repaired (with a finite
    objective) a design is reported: no check of the code stops the run *)
Theorem C98_layout_returns : forall a b pdl pb t,
  well_given a b -> layout_given (b_cons b) (b_plies b) (b_ref b) pdl ->
  let c := b_cons b in
  sym c = true -> Z.even (nth (b_ref b) (b_plies b) 0) = true ->
  (forall j, (j < length (b_plies b))%nat -> zlen (plies_of (nth j pdl [])) = nth j (b_plies b) 0) ->
  (forall r x, In r pdl -> In x r -> -1 <= x) ->
  search_problem b pdl = Ok pb -> beam pb (levels b) = Ok t ->
  (* the functions that are given *)
  (forall s, length (b_lampam b s) = 12%nat) -> shared_parameter c 12 (b_lampam b) ->
  (bal c = true -> forall s, balanced s -> ipo_small (nth 2 (b_lampam b s) 0%Q, nth 3 (b_lampam b s) 0%Q)) ->
  (forall s, exists q, b_pen10 b s (b_lampam b s) = Ok q) ->
  (forall x, In x (s_boundaries (b_strip b)) -> (fst x < length (b_plies b))%nat /\ (snd x < length (b_plies b))%nat /\ exists w, Spacing.lookup (s_weights (b_strip b)) x = Ok w) ->
  (* the laminates found by the search *)
  (forall d s, In d (t_ss t) -> joined c (panel_of c (nth (b_ref b) (b_plies b) 0)) (nth (b_ref b) d ([], [])) s -> plain_repair c (b_rparams b) s) ->
  (forall d, In d (t_ss t) -> exists r, repaired_to c (final_panels b) (repair_of b pdl) d r) /\
  ((exists d r q, In d (t_ss t) /\ repaired_to c (final_panels b) (repair_of b pdl) d r /\
      valued c (final_panels b) (b_lampam b) (b_pen10 b) (b_targets b) (b_weights b) (b_panel_weightings b) (b_coeffs b) r q /\ (q < 10000000000)%Q) ->
   exists o, optimise_layout b pdl = Ok (Some o) /\ (o_total o < 10000000000)%Q /\ delivered b o).
Proof.
  intros a b pdl pb t W G c Sy Ev Hc Hx E X L12 Sh Ip P10 Bd Pl.
  pose proof (w_ref a b W) as Hr. pose proof (search_designs a b pdl pb t W G E X) as Hd. pose proof (design_inputs a b pdl (t_ss t) W G Hd) as I.
  assert (Lp : length (final_panels b) = length (b_plies b)) by (unfold final_panels; apply map_length).
  pose proof (mk_cons_consistent _ _ (w_cons a b W)) as K. destruct (k_set _ K) as (_ & Fa & _). rewrite Forall_forall in Fa.
  assert (T12 : forall i, (i < length (b_plies b))%nat -> length (nth i (b_targets b) []) = 12%nat /\ length (nth i (b_weights b) []) = 12%nat).
  { intros i Hi. pose proof (w_target_range a b W) as A. pose proof (w_normalised a b W) as B. rewrite Forall_forall in A, B. pose proof (w_targets a b W). pose proof (w_weights a b W).
    split; [apply A, nth_In; lia|]. assert (Hi' : (i < length (b_weights b))%nat) by lia. apply (B _ (nth_In (b_weights b) [] Hi')). }
  assert (D : forall d, In d (t_ss t) -> exists r, repairs_to c (final_panels b) (repair_of b pdl) d r /\ (forall s, In s (x_ss r) -> Forall angle_ok s /\ ~ covered_plies c s [])).
  { intros d Id. destruct (search_stacks a b pdl pb t W G Sy Ev Hc Hx E X d Id) as (Ld & stacks & J). destruct (Hd d Id) as [_ Fd].
    pose proof (repairable_designs a b pdl d stacks W G Ld Fd J) as Rp. pose proof (F2_length _ _ _ J) as Ls. rewrite combine_len in Ls by lia. rewrite Lp in Ls.
    assert (S1 : forall i, (i < length (b_plies b))%nat -> joined c (panel_of c (nth i (b_plies b) 0)) (nth i d ([], [])) (nth i stacks [])).
    { intros i Hi. pose proof (Forall2_nth' _ _ _ (panel_of (b_cons b) 0, ([], [])) [] J i) as Y. rewrite combine_len, combine_nth' in Y by lia. specialize (Y ltac:(lia)). cbn [fst snd] in Y.
      unfold final_panels in Y. rewrite map_nth in Y. exact Y. }
    assert (S2 : forall i, (i < length (b_plies b))%nat -> zlen (nth i stacks []) = nth i (b_plies b) 0 /\ Forall (fun x => In x (set_of_angles c)) (nth i stacks [])).
    { intros i Hi. split; [apply (S1 i Hi)|]. apply (joined_from c _ _ _ _ (S1 i Hi)); [cbn; unfold c in *; rewrite Sy; reflexivity|]. rewrite Forall_forall in Fd. apply Fd, nth_In. lia. }
    assert (RR : ready_to_redesign c (b_strip b) 12 (b_lampam b) (b_targets b) (b_weights b) (b_panel_weightings b) (b_plies b) (nth (b_ref b) stacks [])).
    { constructor.
      - intros Y. apply (w_contig a b W Y).
      - intros x Ix. destruct (S2 _ Hr) as [_ F]. rewrite Forall_forall in F. apply F, Ix.
      - apply (plies_three a b W).
      - exact Bd.
      - exact L12.
      - split; [apply W|]. intros u Iu. apply (In_nth _ _ []) in Iu. destruct Iu as [i [Hi <-]]. apply T12. rewrite <- (w_targets a b W). exact Hi.
      - split; [apply W|]. intros u Iu. apply (In_nth _ _ []) in Iu. destruct Iu as [i [Hi <-]]. apply T12. rewrite <- (w_weights a b W). exact Hi.
      - rewrite (w_weightings a b W). lia. }
    destruct (C97_repair_answers a c (b_strip b) 12 (b_cos_sin b) (b_lampam b) (b_distA b) (b_targets b) (b_weights b) (b_weightsA b) (b_weightsD b) (b_panel_weightings b) (b_plies b) (b_ref b) (b_rparams b) pdl stacks
      (w_cons a b W) (w_angles a b W) Rp (w_repair a b W) Ip ltac:(apply S2, Hr) (Pl d _ Id (S1 _ Hr)) RR Sh) as (done & ss' & sst' & pdl' & stage & Er).
    { unfold b_weightsA. rewrite map_length. apply W. }
    { unfold b_weightsD. rewrite map_length. apply W. }
    destruct (C98_returned_stacks _ _ _ _ _ _ _ _ _ _ _ _ _ _ _ _ _ _ _ _ _ (w_cons a b W) (w_angles a b W) Rp (w_repair a b W) (w_known a b W) Hc S2 Er) as [L' S'].
    exists {| x_done := done; x_ss := ss'; x_sst := sst'; x_pdl := pdl'; x_stage := stage |}. split.
    - exists stacks. split; [exact J|]. split; [lia|]. split; [unfold repair_of, packed; fold c; rewrite Er; reflexivity|]. cbn [x_ss]. split; [lia|].
      intros i s p Es Ep. unfold final_panels in Ep. rewrite nth_error_map in Ep. destruct (nth_error (b_plies b) i) as [n|] eqn:En; [|discriminate]. injection Ep as <-. cbn [panel_of f_plies].
      assert (Hi : (i < length (b_plies b))%nat) by (apply nth_error_Some; congruence). destruct (S' i Hi) as [Y _]. rewrite (nth_error_nth _ _ [] Es), (nth_error_nth _ _ 0 En) in Y. exact Y.
    - cbn [x_ss]. intros s Is. apply (In_nth _ _ []) in Is. destruct Is as [i [Hi <-]]. rewrite L' in Hi. destruct (S' i Hi) as [Y1 Y2]. split.
      + rewrite Forall_forall in *. intros x Ix. destruct (Y2 x Ix) as [->|Y]; [unfold angle_ok; lia|apply Fa, Y].
      + apply covered_some. rewrite Y1. apply (plies_three a b W i Hi). }
  split.
  { intros d Id. destruct (D d Id) as (r & (stacks & J & _ & R & _) & _). exists r, stacks. auto. }
  intros Some_done. assert (Wk : workable c (final_panels b) (b_lampam b) (b_pen10 b) (b_targets b) (b_weights b) (repair_of b pdl) (t_ss t)).
  { constructor; auto.
    - intros Y. apply (k_contig_off _ K), Y.
    - intros s. rewrite L12. lia.
    - intros s i Hi. rewrite Lp in Hi. rewrite L12. apply T12, Hi. }
  destruct (C64_returns c (final_panels b) (b_lampam b) (b_pen10 b) (b_targets b) (b_weights b) (b_panel_weightings b) (b_coeffs b) (repair_of b pdl) (t_ss t) I Wk Some_done) as (o & F & B).
  assert (O : optimise_layout b pdl = Ok (Some o)) by (unfold optimise_layout; rewrite E; cbn [bind]; rewrite X; cbn [bind]; rewrite (w_save a b W); exact F).
  exists o. split; [exact O|]. split; [exact B|]. exact (C81_one_layout a b pdl o W G O B).
Qed.
Print Assumptions C98_layout_returns.

(* ---------------- a concrete case ---------------- *)
Lemma ex_given_1 c : mk_cons (args_re true true true) = Ok c -> well_given (args_re true true true) (bella_ex c [8; 12] 1).
Proof.
  intros E. destruct (ex_given c E) as [A1 A2 A3 A4 A5 A6 A7 A8 A9 A10 A11 A12 A13 A14 A15 A16]. constructor; try assumption. cbn; lia.
Qed.
Lemma ex_layout_1 c : layout_given c [8; 12] 1 layout_1.
Proof. constructor; [reflexivity|intros r [<-|[<-|[]]]; reflexivity|unfold dropped; cbn; lia|reflexivity|intros _ [|[|i]] Hi; try reflexivity; cbn in Hi; lia]. Qed.
Lemma sum_nth (f : Z -> Q) (s : list Z) : (sumQ (map (fun i => f (nth i s 0%Z)) (seq 0 (length s))) == sumQ (map f s))%Q.
Proof.
  induction s as [|x s IH]; [reflexivity|]. cbn [length seq map nth]. rewrite <- seq_shift, map_map. unfold sumQ in *. cbn [fold_right nth]. rewrite IH. reflexivity.
Qed.
Lemma in_plane_parameter s k : (k < 4)%nat -> (1 <= length s)%nat -> (Properties_moments.lamination_parameter cos_sin_4 s k == in_plane cos_sin_4 s k)%Q.
Proof.
  intros Hk Hs. unfold Properties_moments.lamination_parameter, in_plane. cbv zeta. destruct (Nat.ltb_spec k 4) as [_|]; [|lia]. rewrite (Nat.mod_small k 4) by exact Hk.
  set (n := length s) in *. assert (N0 : ~ (inject_Z (Z.of_nat n) == 0)%Q) by (intros X; unfold inject_Z, Qeq in X; cbn in X; lia).
  assert (St : forall i, (Properties_moments.interface n (S i) - Properties_moments.interface n i == 2 / inject_Z (Z.of_nat n))%Q).
  { intros i. unfold Properties_moments.interface. replace (2 * Z.of_nat (S i)) with (2 * Z.of_nat i + 2) by lia. rewrite inject_Z_plus. change (inject_Z 2) with 2%Q. field. exact N0. }
  assert (X : forall l, (sumQ (map (fun i => (Properties_moments.interface n (S i) - Properties_moments.interface n i) * cos_sin_4 (nth i s 0%Z) k) l) == (2 / inject_Z (Z.of_nat n)) * sumQ (map (fun i => cos_sin_4 (nth i s 0%Z) k) l))%Q).
  { induction l as [|i l IH]; unfold sumQ in *; cbn [map fold_right]; [ring|]. rewrite IH, St. ring. }
  rewrite X. unfold n at 2. rewrite (sum_nth (fun a => cos_sin_4 a k) s). field. exact N0.
Qed.
Lemma lp_12_0 s k : (k < 4)%nat -> (in_plane cos_sin_4 s k == 0)%Q -> (nth k (Properties_pipeline.lp_12 s) 0 == 0)%Q.
Proof.
  intros Hk H. unfold Properties_pipeline.lp_12. match goal with |- context [map ?f (seq 0 12)] => assert (nth k (map f (seq 0 12)) 0%Q = f k) as -> by (destruct k as [|[|[|[|k]]]]; [reflexivity..|lia]) end. rewrite Qred_correct.
  destruct s as [|x s].
  - unfold Properties_moments.lamination_parameter. reflexivity.
  - rewrite in_plane_parameter by (cbn [length]; lia). exact H.
Qed.
Lemma no_fourth s : (in_plane cos_sin_4 s 3%nat == 0)%Q.
Proof.
  unfold in_plane, Qdiv. assert (sumQ (map (fun a => cos_sin_4 a 3%nat) s) == 0)%Q as ->; [|ring]. induction s as [|y s IH]; cbn; [reflexivity|]. rewrite IH. reflexivity.
Qed.
Lemma lp_12_balanced s : balanced s -> ipo_small (nth 2 (Properties_pipeline.lp_12 s) 0%Q, nth 3 (Properties_pipeline.lp_12 s) 0%Q).
Proof.
  intros B. specialize (B 45 ltac:(lia) ltac:(cbn; lia)). cbn [Z.opp] in B. unfold ipo_small. cbn [fst snd].
  rewrite (lp_12_0 s 3) by (try lia; apply no_fourth). rewrite (lp_12_0 s 2); [|lia|unfold in_plane, Qdiv; rewrite shear_sum, B, Z.sub_diag; ring]. split; vm_compute; discriminate.
Qed.
Lemma lp_12_shares c : shared_parameter c 12 Properties_pipeline.lp_12.
Proof. exists 3%nat, 0%Q. split; [lia|]. intros s _ _. apply lp_12_0; [lia|apply no_fourth]. Qed.

Definition plain_parts (c : cons) : list (list Z) := [[0; 90; -45; 45; 0; 0]; [0; 90; -45; 45; 45; 0]].
Lemma plain_here c part : mk_cons (args_re true true true) = Ok c -> In part (plain_parts c) -> plain_repair c (par_mp false) (part ++ rev part).
Proof.
  intros E I. assert (Z0 : delta_angle c = 180 /\ n_contig c = 5%nat /\ sym c = true /\ diso c = false /\ dam_tol c = false /\ contig c = true) by (vm_compute in E; injection E as <-; repeat split).
  vm_compute in E; injection E as <-.
  destruct I as [<-|[<-|[]]]; (constructor; try reflexivity; [cbn; tauto|discriminate|intros _; cbn; lia|intros _; cbn; lia|vm_compute; discriminate|split; [vm_compute; discriminate|discriminate]|discriminate|split; [cbn; lia|]; split; [intros _; split; reflexivity|discriminate]]).
Qed.

(** a design of the search that is repaired with a finite objective, from a run that reports one *)
Lemma repaired_below c panels lampam pen10 targets weights pw coeffs repair designs o :
  inputs c panels targets weights pw repair designs -> finish c panels lampam pen10 targets weights pw coeffs repair false designs = Ok (Some o) -> (o_total o < 10000000000)%Q ->
  exists d r q, In d designs /\ repaired_to c panels repair d r /\ valued c panels lampam pen10 targets weights pw coeffs r q /\ (q < 10000000000)%Q.
Proof.
  intros I F B. apply C64_selected in F; [|exact I]. destruct F as (rs & values & k & r & R & V & M & N & T & P & _).
  assert (Kr : (k < length rs)%nat) by (apply nth_error_Some; congruence). pose proof (F2_length _ _ _ R) as L1. pose proof (F2_length _ _ _ V) as L2.
  assert (nth k rs r = r) as Er by (apply nth_error_nth; auto).
  exists (nth k designs []), r, (nth k values 0%Q). split; [apply nth_In; lia|]. split; [rewrite <- Er; apply (Forall2_nth' _ _ _ [] r R); lia|].
  split; [rewrite <- Er at 1; apply (Forall2_nth' _ _ _ r 0%Q V k); lia|rewrite <- T; exact B].
Qed.

(** two panels of 8 and 12 plies, the reference panel being the thick one *)
Example C98_example : exists c pb t, let b := bella_ex c [8; 12] 1 in
  mk_cons (args_re true true true) = Ok c /\ well_given (args_re true true true) b /\ layout_given (b_cons b) (b_plies b) (b_ref b) layout_1 /\
  sym (b_cons b) = true /\ Z.even (nth (b_ref b) (b_plies b) 0) = true /\
  (forall j, (j < length (b_plies b))%nat -> zlen (plies_of (nth j layout_1 [])) = nth j (b_plies b) 0) /\
  (forall r x, In r layout_1 -> In x r -> -1 <= x) /\
  search_problem b layout_1 = Ok pb /\ beam pb (levels b) = Ok t /\ length (t_ss t) = 2%nat /\
  (forall s, length (b_lampam b s) = 12%nat) /\ shared_parameter c 12 (b_lampam b) /\
  (bal c = true -> forall s, balanced s -> ipo_small (nth 2 (b_lampam b s) 0%Q, nth 3 (b_lampam b s) 0%Q)) /\
  (forall s, exists q, b_pen10 b s (b_lampam b s) = Ok q) /\
  (forall x, In x (s_boundaries (b_strip b)) -> (fst x < length (b_plies b))%nat /\ (snd x < length (b_plies b))%nat /\ exists w, Spacing.lookup (s_weights (b_strip b)) x = Ok w) /\
  (forall d s, In d (t_ss t) -> joined c (panel_of c (nth (b_ref b) (b_plies b) 0)) (nth (b_ref b) d ([], [])) s -> plain_repair c (b_rparams b) s) /\
  (exists d r q, In d (t_ss t) /\ repaired_to c (final_panels b) (repair_of b layout_1) d r /\
      valued c (final_panels b) (b_lampam b) (b_pen10 b) (b_targets b) (b_weights b) (b_panel_weightings b) (b_coeffs b) r q /\ (q < 10000000000)%Q).
Proof.
  destruct (mk_cons (args_re true true true)) as [c|] eqn:E; [|vm_compute in E; discriminate]. exists c. pose proof (ex_given_1 c E) as W. pose proof (ex_layout_1 c) as G. set (b := bella_ex c [8; 12] 1) in *.
  assert (Run : match search_problem b layout_1 with Ok pb => match beam pb (levels b) with
     Ok t => map (fun d => fst (nth 1 d ([], []))) (t_ss t) = plain_parts c /\ match optimise_layout b layout_1 with Ok (Some o) => Qle_bool 10000000000 (o_total o) = false | _ => False end | _ => False end | _ => False end).
  { unfold b. clear - E. vm_compute in E. injection E as <-. vm_compute. split; reflexivity. }
  destruct (search_problem b layout_1) as [pb|] eqn:Ep; [|destruct Run]. destruct (beam pb (levels b)) as [t|] eqn:X; [|destruct Run]. destruct Run as [Parts Small].
  assert (Sy : sym c = true) by (clear - E; vm_compute in E; injection E as <-; reflexivity).
  exists pb, t. cbv zeta. split; [reflexivity|]. split; [exact W|]. split; [exact G|]. split; [exact Sy|]. split; [reflexivity|].
  split; [intros [|[|j]] Hj; try reflexivity; cbn in Hj; lia|].
  split; [intros r x [<-|[<-|[]]] Hx; cbn in Hx; intuition lia|]. split; [exact Ep|]. split; [exact X|].
  split; [apply (f_equal (@length _)) in Parts; rewrite map_length in Parts; exact Parts|].
  split; [intros s; unfold b; cbn [b_lampam bella_ex bella_on]; unfold Properties_pipeline.lp_12; rewrite map_length, seq_length; reflexivity|].
  split; [apply lp_12_shares|]. split; [intros _ s; apply lp_12_balanced|]. split; [intros s; exists 0%Q; reflexivity|].
  split; [intros x [<-|[]]; (split; [cbn; lia|]; split; [cbn; lia|]; eexists; reflexivity)|].
  split.
  - intros d s Id J. apply (in_map (fun d => fst (nth 1 d ([], [])))) in Id. rewrite Parts in Id. destruct J as (_ & _ & J & _). specialize (J Sy).
    change (nth (b_ref b) d ([], [])) with (nth 1 d ([], [])) in J. rewrite J; [apply (plain_here c _ E Id)|]. unfold panel_of. cbn [f_middle]. rewrite Sy. reflexivity.
  - destruct (optimise_layout b layout_1) as [[o|]|] eqn:O; try (destruct Small; fail). unfold optimise_layout in O. rewrite Ep in O. cbn [bind] in O. rewrite X in O. cbn [bind] in O. rewrite (w_save _ b W) in O.
    apply (repaired_below c (final_panels b) (b_lampam b) (b_pen10 b) (b_targets b) (b_weights b) (b_panel_weightings b) (b_coeffs b) (repair_of b layout_1) (t_ss t) o); [|exact O|].
    + apply (design_inputs _ b layout_1 (t_ss t) W G), (search_designs _ b layout_1 pb t W G Ep X).
    + apply Qnot_le_lt. intros Y. apply Qle_bool_iff in Y. congruence.
Qed.
Print Assumptions C98_example.
(** a design of three panels whose repair answers (see C97) *)
Example C98_stacks_example : exists c done ss' sst' pdl' stage, mk_cons (args_ss false) = Ok c /\ ~ In dropped (set_of_angles c) /\ repairable c [18; 20; 24] 1 pdl_97 ss_97 /\
  (bal c = true \/ rule_10_percent c = false) /\
  (forall j, (j < 3)%nat -> zlen (plies_of (nth j pdl_97 [])) = nth j [18; 20; 24] 0) /\
  (forall j, (j < 3)%nat -> zlen (nth j ss_97 []) = nth j [18; 20; 24] 0 /\ Forall (fun x => In x (set_of_angles c)) (nth j ss_97 [])) /\
  run_97 c params_ss_on = Ok (done, ss', sst', pdl', stage) /\ ss' <> ss_97.
Proof.
  destruct C97_example as (c & E & S & I & _). exists c.
  assert (R : exists done ss' sst' pdl' stage, run_97 c params_ss_on = Ok (done, ss', sst', pdl', stage) /\ ss' <> ss_97).
  { clear - E. vm_compute in E. injection E as <-. do 5 eexists. split; [vm_compute; reflexivity|discriminate]. }
  destruct R as (d & s & t & u & k & R & N). exists d, s, t, u, k. split; [exact E|]. split; [exact S|]. split; [exact I|].
  assert (X : (bal c = true \/ rule_10_percent c = false) /\ forall j, (j < 3)%nat -> zlen (nth j ss_97 []) = nth j [18; 20; 24] 0 /\ Forall (fun x => In x (set_of_angles c)) (nth j ss_97 [])).
  { clear - E. vm_compute in E. injection E as <-. split; [left; reflexivity|]. intros [|[|[|j]]] Hj; [..|lia]; (split; [reflexivity|]); apply Forall_forall; intros x Hx; vm_compute in Hx; cbn; intuition. }
  split; [apply X|]. split; [intros [|[|[|j]]] Hj; [reflexivity..|lia]|]. split; [apply X|]. split; [exact R|exact N].
Qed.

(* ---------------- all the layouts ---------------- *)
(** what C98_layout_returns asks of a layout: the search finds designs whose laminates of the
    reference panel are in reach of the repair, and one of them is repaired with a finite objective *)
Record ready_layout (b : bella) (pdl : list (list Z)) : Prop := {
  y_layout : layout_given (b_cons b) (b_plies b) (b_ref b) pdl;
  y_counts : forall j, (j < length (b_plies b))%nat -> zlen (plies_of (nth j pdl [])) = nth j (b_plies b) 0;
  y_marks : forall r x, In r pdl -> In x r -> -1 <= x;
  y_search : exists pb t, search_problem b pdl = Ok pb /\ beam pb (levels b) = Ok t /\
    (forall d s, In d (t_ss t) -> joined (b_cons b) (panel_of (b_cons b) (nth (b_ref b) (b_plies b) 0)) (nth (b_ref b) d ([], [])) s -> plain_repair (b_cons b) (b_rparams b) s) /\
    (exists d r q, In d (t_ss t) /\ repaired_to (b_cons b) (final_panels b) (repair_of b pdl) d r /\
       valued (b_cons b) (final_panels b) (b_lampam b) (b_pen10 b) (b_targets b) (b_weights b) (b_panel_weightings b) (b_coeffs b) r q /\ (q < 10000000000)%Q) }.
(** the functions that are given, and the boundaries of the structure *)
Record ready_oracles (b : bella) : Prop := {
  y_twelve : forall s, length (b_lampam b s) = 12%nat;
  y_shared : shared_parameter (b_cons b) 12 (b_lampam b);
  y_balance : bal (b_cons b) = true -> forall s, balanced s -> ipo_small (nth 2 (b_lampam b s) 0%Q, nth 3 (b_lampam b s) 0%Q);
  y_pen10 : forall s, exists q, b_pen10 b s (b_lampam b s) = Ok q;
  y_boundaries : forall x, In x (s_boundaries (b_strip b)) -> (fst x < length (b_plies b))%nat /\ (snd x < length (b_plies b))%nat /\ exists w, Spacing.lookup (s_weights (b_strip b)) x = Ok w }.

(** The complete run over layouts that are ready returns: either the best of the designs of the
    layouts, or, when the objective of a layout before the last one is exactly zero, no design *)
Theorem C98_run_returns : forall a b pdls,
  well_given a b -> sym (b_cons b) = true -> Z.even (nth (b_ref b) (b_plies b) 0) = true -> ready_oracles b ->
  pdls <> [] -> (forall pdl, In pdl pdls -> ready_layout b pdl) ->
  (exists o q, optimise b pdls = Ok (Some o, Some q) /\ q = o_total o /\ (q < 10000000000)%Q /\ delivered b o /\
     (forall pdl, In pdl pdls -> exists o', optimise_layout b pdl = Ok (Some o') /\ (q <= o_total o')%Q)) \/
  (optimise b pdls = Ok (None, None) /\
     exists before pdl after o, pdls = before ++ pdl :: after /\ after <> [] /\ optimise_layout b pdl = Ok (Some o) /\ (o_total o == 0)%Q).
Proof.
  intros a b pdls W Sy Ev [O1 O2 O3 O4 O5] Ne Y.
  assert (L : forall pdl, In pdl pdls -> exists o, optimise_layout b pdl = Ok (Some o) /\ (o_total o < 10000000000)%Q /\ delivered b o).
  { intros pdl I. destruct (Y pdl I) as [G Hc Hx (pb & t & E & X & Pl & Rp)].
    destruct (C98_layout_returns a b pdl pb t W G Sy Ev Hc Hx E X O1 O2 O3 O4 O5 Pl) as [_ R]. exact (R Rp). }
  assert (Rn : exists l, runs b pdls = Ok l).
  { clear Ne Y. induction pdls as [|p pdls IH]; [exists []; reflexivity|]. cbn [runs]. destruct (L p (or_introl eq_refl)) as (o & -> & _). cbn [bind].
    destruct (Qeq_bool (o_total o) 0); [eexists; reflexivity|]. destruct IH as [l ->]; [intros q I; apply L; right; exact I|]. cbn [bind]. eexists. reflexivity. }
  destruct Rn as [l Rn]. destruct (runs_spec b pdls l Rn) as [(os & F & -> & N)|(before & after & Ls & N & St)].
  - left. destruct os as [|o0 os]; [inversion F; subst; contradiction|].
    destruct (Properties_search.C33_best_of_complete_runs_partial (option report) None (map entry (o0 :: os)) ltac:(discriminate) N) as (obj & d & E' & I & _).
    apply in_map_iff in I. destruct I as [o [Eo Io]]. unfold entry in Eo. injection Eo as <- <-.
    assert (Opt : optimise b pdls = Ok (Some o, Some (o_total o))) by (unfold optimise; rewrite Rn; cbn [bind]; exact E').
    assert (B : (o_total o < 10000000000)%Q).
    { destruct (In_nth _ _ o Io) as (k & Hk & Ek). pose proof (F2_length _ _ _ F) as Lf. pose proof (Forall2_nth' _ _ _ [] o F k ltac:(lia)) as Z. rewrite Ek in Z.
      destruct (L (nth k pdls []) ltac:(apply nth_In; lia)) as (o' & E1 & B & _). rewrite E1 in Z. injection Z as ->. exact B. }
    destruct (C81_reported_design a b pdls o (o_total o) W ltac:(intros pdl I; apply (Y pdl I)) Opt B) as (_ & Dl & _ & M).
    exists o, (o_total o). auto.
  - right. destruct St as (bf & p & af & Ep & _ & Sp). assert (Ip : In p pdls) by (rewrite Ep; apply in_app_iff; right; left; reflexivity).
    destruct (L p Ip) as (o & Eo & _). destruct Sp as [Sn|[(o' & Eo' & Zo) Na]]; [rewrite Eo in Sn; discriminate Sn|].
    split; [|exists bf, p, af, o'; auto].
    unfold optimise. rewrite Rn. cbn [bind]. destruct Ls as [->|(o1 & -> & Z1 & Ne1)].
    + exact (Properties_search.C33_void_result_when_a_layout_fails (option report) None (map entry before) after N).
    + exact (Properties_search.C33_void_result_after_early_stop (option report) None (Some o1) (map entry before) (o_total o1) after N Z1 Ne1).
Qed.
Print Assumptions C98_run_returns.
Example C98_run_example : exists c, let b := bella_ex c [8; 12] 1 in
  mk_cons (args_re true true true) = Ok c /\ well_given (args_re true true true) b /\ sym (b_cons b) = true /\ Z.even (nth (b_ref b) (b_plies b) 0) = true /\
  ready_oracles b /\ ready_layout b layout_1.
Proof.
  destruct C98_example as (c & pb & t & E & W & G & Sy & Ev & Hc & Hx & Ep & X & _ & L12 & Sh & Ip & P10 & Bd & Pl & Rp). exists c. cbv zeta.
  assert (Ec : b_cons (bella_ex c [8; 12] 1) = c) by reflexivity.
  split; [exact E|]. split; [exact W|]. split; [exact Sy|]. split; [exact Ev|]. split; [constructor; auto|]. constructor; auto. exists pb, t. auto.
Qed.
