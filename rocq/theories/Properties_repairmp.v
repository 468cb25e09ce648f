(* Properties_repairmp.v - C38, C57: repair of a multi-panel design *)
From Coq Require Import Lqa.
From Verif Require Import Base Uniq Constraints Guidelines SpecGuidelines GuidelinesProofs ConstraintsProofs GateProofs Divers Spacing Strip StripProofs Format FormatProofs
  Search Objectives Repair10 RepairDiso Membrane Flexural Abdalla10 SpecRedesign Redesign RedesignProofs RedesignThick RepairMp RepairMpProofs
  Properties_guidelines Properties_format Properties_membrane Properties_flexural Properties_redesign.
Local Open Scope Z_scope.

(** the inputs of the repair: a blending strip, thinnest panel first, the ply-drop layout of the
    strip and a stacking sequence for each panel *)
Record repairable (c : cons) (plies : list Z) (ref : nat) (pdl ss : list (list Z)) : Prop := {
  i_increasing : StronglySorted Z.lt plies;
  i_ref : (ref < length plies)%nat;
  i_parity : sym c = true -> forall i, (i < length plies)%nat -> Z.even (nth i plies 0) = Z.even (nth ref plies 0);
  i_panels : length pdl = length plies /\ length ss = length plies;
  i_width : forall r, In r pdl -> zlen r = last plies 0;
  i_thickest : ~ In dropped (last pdl []);
  i_layout_ref : zlen (plies_of (nth ref pdl [])) = nth ref plies 0;
  i_mirror : sym c = true -> let drops := map (Z.eqb dropped) (nth ref pdl []) in drops = rev drops;
  i_guide : zlen (last ss []) = last plies 0 /\ ~ In dropped (last ss []);
  i_angles : Forall (fun x => In x (set_of_angles c)) (nth ref ss []) }.

(* ---------------- tables and the positions of their drops ---------------- *)
Definition mask (sst : list (list Z)) : list (list bool) := map (map kept) sst.
Lemma plies_kept r : plies_of r = filter kept r.
Proof. reflexivity. Qed.
Lemma upd_mask v r : kept v = true -> forall col, kept (nth col r (-1)) = true -> map kept (upd col v r) = map kept r.
Proof.
  intros K. induction r as [|x r IH]; intros [|col] H; cbn in *; try reflexivity.
  - rewrite K, H. reflexivity.
  - rewrite (IH col H). reflexivity.
Qed.
Lemma ref_columns_mask t ref : ~ In (-1) t -> forall n col k sst sst', ref_columns n col k t ref sst = Ok sst' -> mask sst' = mask sst.
Proof.
  intros Nt. induction n as [|n IH]; intros col k sst sst'; cbn [ref_columns]; [intros E; injection E as <-; reflexivity|].
  destruct (row sst ref) as [r|]; cbn [bind]; [|discriminate]. destruct (kept (nth col r (-1))); [|apply IH].
  unfold row. destruct (nth_error t k) as [v|] eqn:E; cbn [bind]; [|discriminate]. intros H. apply IH in H. rewrite H. unfold mask. rewrite map_map. apply map_ext. intros x.
  destruct (kept (nth col x (-1))) eqn:K; [|reflexivity]. apply upd_mask; [|exact K]. unfold kept. apply negb_true_iff, Z.eqb_neq. intros ->. apply Nt. eapply nth_error_In, E.
Qed.
Lemma masked_mask g : ~ In (-1) g -> forall p, length p = length g -> map kept (masked g p) = map kept p.
Proof.
  unfold masked. induction g as [|x g IH]; intros Ng [|y p] L; cbn in *; try discriminate; [reflexivity|]. rewrite IH by (try tauto; lia).
  destruct (kept y) eqn:K; cbn; [|reflexivity]. f_equal. unfold kept. apply negb_true_iff, Z.eqb_neq. intuition.
Qed.
Lemma convert_mask n pdl before g t ref sst : rect n pdl -> pdl <> [] -> get before (-1) = Ok g -> length g = n -> ~ In (-1) g -> ~ In (-1) t ->
  convert_ss_ref_to_reduced_sst t ref pdl before = Ok sst -> mask sst = mask pdl.
Proof.
  intros R Ne G L Ng Nt. unfold convert_ss_ref_to_reduced_sst, convert_ss_to_sst. rewrite G. cbn [bind]. rewrite (guide_to_sst_masked n) by assumption. cbn [bind].
  intros H. apply ref_columns_mask in H; [|exact Nt]. rewrite H. unfold mask. rewrite map_map. apply map_ext_in. intros p Hp. apply masked_mask; [exact Ng|]. rewrite L. apply R, Hp.
Qed.
Lemma mask_filter_inj : forall l m, map kept l = map kept m -> filter kept l = filter kept m -> l = m.
Proof.
  induction l as [|x l IH]; intros [|y m] E F; cbn in *; try discriminate; [reflexivity|]. injection E as E1 E2. rewrite E1 in F.
  destruct (kept y) eqn:K.
  - injection F as -> F. f_equal. apply IH; assumption.
  - unfold kept in *. apply negb_false_iff, Z.eqb_eq in E1, K. subst. f_equal. apply IH; assumption.
Qed.
Lemma mask_pal l : map kept l = rev (map kept l) -> filter kept l = rev (filter kept l) -> l = rev l.
Proof. intros E F. apply mask_filter_inj; [rewrite map_rev; exact E|rewrite F at 1; rewrite filter_rev; reflexivity]. Qed.
Lemma mask_count : forall l m, map kept l = map kept m -> length (filter kept l) = length (filter kept m).
Proof. induction l as [|x l IH]; intros [|y m] E; cbn in *; try discriminate; [reflexivity|]. injection E as E1 E2. rewrite E1. destruct (kept y); cbn; rewrite (IH m E2); reflexivity. Qed.
Lemma mask_nth sst pdl i : mask sst = mask pdl -> map kept (nth i sst []) = map kept (nth i pdl []).
Proof. intros E. change (@nil bool) with (map kept []) in *. rewrite <- !(map_nth (map kept)). unfold mask in E. rewrite E. reflexivity. Qed.
Lemma mask_len {sst pdl : list (list Z)} : mask sst = mask pdl -> length sst = length pdl.
Proof. intros E. apply (f_equal (@length _)) in E. unfold mask in E. rewrite !map_length in E. exact E. Qed.
Lemma get_last {A} (d : A) l : l <> [] -> get l (-1) = Ok (last l d).
Proof.
  intros Ne. unfold get, py_get. cbn [Z.leb Z.compare]. destruct (exists_last Ne) as [m [x ->]]. rewrite last_last. unfold zlen. rewrite app_length. cbn [length].
  destruct (Z.leb_spec (- Z.of_nat (length m + 1)) (-1)); [|lia]. replace (Z.to_nat (Z.of_nat (length m + 1) + -1)) with (length m) by lia.
  rewrite nth_error_app2 by lia. rewrite Nat.sub_diag. reflexivity.
Qed.
Lemma last_map {A B} (f : A -> B) l d e : l <> [] -> last (map f l) e = f (last l d).
Proof. intros Ne. destruct (exists_last Ne) as [m [x ->]]. rewrite map_app. cbn [map]. rewrite !last_last. reflexivity. Qed.
Lemma kept_all l : ~ In (-1) l <-> map kept l = repeat true (length l).
Proof.
  induction l as [|x l IH]; cbn; [tauto|]. split.
  - intros H. f_equal; [|apply IH; tauto]. unfold kept. apply negb_true_iff, Z.eqb_neq. intuition.
  - intros E. injection E as E1 E2. unfold kept in E1. apply negb_true_iff, Z.eqb_neq in E1. apply IH in E2. intuition.
Qed.

(* ---------------- no unknown ply is left ---------------- *)
Section Known.
Variable c : cons.
Lemma repair_none cos_sin distA fuel ss m sq : bal c = false -> ipo c = false -> rule_10_percent c = false ->
  repair_10_bal_all c cos_sin distA fuel ss m = Ok sq -> sq = (ss, []).
Proof. intros B I R. unfold repair_10_bal_all, repair_10_bal_2. rewrite R, I. cbn [andb negb]. intros E. injection E as <-. reflexivity. Qed.
Lemma membrane_none cos_sin distA coeffs target switch fuel p_A ss q m l : ipo c = false -> rule_10_percent c = false ->
  repair_membrane c cos_sin distA coeffs target switch fuel p_A ss q m = Ok l -> l = [(ss, q)].
Proof.
  intros I R. unfold repair_membrane. destruct (_ || _)%bool.
  - destruct (calc_lampamA_ply_queue _ _ _ _); cbn [bind]; [|discriminate]. intros E. injection E as <-. reflexivity.
  - unfold repair_membrane_1. rewrite R, I. cbn [andb]. discriminate.
Qed.
End Known.

Lemma balanced_known t : ~ In (-666) t -> is_balanced t = true -> ~ In 666 t.
Proof.
  intros N B I. unfold is_balanced in B. rewrite forallb_forall in B.
  specialize (B 666). assert (C : count 666 t = count (- 666) t).
  { apply Z.eqb_eq, B. apply filter_In. split; [|reflexivity]. apply uniq_in, in_map_iff. exists 666. auto. }
  change (- 666) with (-666) in C. rewrite (proj2 (count_zero (-666) t) N) in C. apply count_pos in I. lia.
Qed.
Lemma gate_balanced orc t c : bal c = true -> check_lay_up_rules orc t c false false false false None = Ok tt -> is_balanced t = true.
Proof.
  intros B. unfold check_lay_up_rules. rewrite B. cbn [negb andb guard bind]. destruct (if dam_tol c then _ else _); cbn [bind]; [|discriminate].
  unfold check. cbn [bind]. destruct (is_balanced t); [reflexivity|]. cbn. discriminate.
Qed.

(* ---------------- the reference panel ---------------- *)
Section Reference.
Variable c : cons.
Variable cos_sin : Z -> nat -> Q.
Variable lampam : list Z -> list Q.
Variable distA : vec -> Q.
Variables (targets weightsA weightsD : list (list Q)) (plies : list Z) (ref : nat) (p : rparams) (pdl : list (list Z)).
Hypothesis K : consistent c.
Hypothesis Hset : ~ In dropped (set_of_angles c).
Hypothesis Hobj : forall u, (oop_objective cos_sin (vec_from 0 (nth ref weightsD [])) (vec_from 8 (nth ref targets [])) u <= 10000000000)%Q.

Definition placed (x : Z) : Prop := x = 666 \/ x = 0 \/ In x (set_of_angles c).
Lemma placed_kept t : Forall placed t -> ~ In (-1) t.
Proof. intros F I. rewrite Forall_forall in F. destruct (F _ I) as [X|[X|X]]; try discriminate. exact (Hset X). Qed.

(** the outcome of the repair of the reference panel *)
Definition repaired (ss : list (list Z)) (done : bool) (lps : list (list Q)) (sst1 ss1 : list (list Z)) : Prop :=
  if done then
    let t := nth ref ss1 [] in
    mask sst1 = mask pdl /\ blended_over pdl sst1 /\ ss1 = map plies_of sst1 /\ (Forall placed t /\ (bal c = true \/ rule_10_percent c = false -> ~ In 666 t)) /\ (sym c = true -> palindrome t) /\
    check_lay_up_rules (lampamA34 lampam) t c false false false false None = Ok tt /\ (ref < length ss1)%nat
  else ss1 = ss.
Lemma reference_panel ss done lps sst1 ss1 : repairable c plies ref pdl ss ->
  repair_reference_panel c cos_sin lampam distA targets weightsA weightsD ref p pdl ss = Ok (done, lps, sst1, ss1) -> repaired ss done lps sst1 ss1.
Proof.
  intros [I1 I2 I3 [I4 I4'] I5 I6 I7 I8 [I9 I9'] I10]. unfold repair_reference_panel.
  assert (Er : row ss ref = Ok (nth ref ss [])) by (unfold row; rewrite (nth_error_nth' ss []) by lia; reflexivity). rewrite Er. cbn [bind].
  destruct (row targets ref) as [target|] eqn:Et; cbn [bind]; [|discriminate]. destruct (row weightsA ref) as [wA|]; cbn [bind]; [|discriminate]. destruct (row weightsD ref) as [wD|] eqn:Ed; cbn [bind]; [|discriminate].
  assert (nth ref targets [] = target) as Xt by (unfold row in Et; destruct (nth_error targets ref) eqn:E; [injection Et as <-; apply nth_error_nth, E|discriminate]).
  assert (nth ref weightsD [] = wD) as Xd by (unfold row in Ed; destruct (nth_error weightsD ref) eqn:E; [injection Ed as <-; apply nth_error_nth, E|discriminate]).
  rewrite Xt, Xd in Hobj. cbv zeta.
  set (A := fun x => x = 0 \/ In x (set_of_angles c)).
  destruct (k_set c K) as (_ & _ & Kn & _ & K10).
  assert (A0 : A 0) by now left. assert (Aset : forall a, In a (set_of_angles c) -> A a) by (intros; now right).
  assert (Aneg : forall a, A a -> a <> 90 -> A (- a)) by (intros a [->|Ha] Na; [now left|right; auto]).
  assert (A10 : rule_10_percent c = true -> A 90 /\ A 45 /\ A (-45)) by (intros R; destruct (K10 R) as (_ & B1 & B2 & B3); unfold A; auto).
  destruct (repair_10_bal_all _ _ _ _ _ _) as [[s0 q0]|] eqn:E1; cbn [bind fst snd]; [|discriminate].
  pose proof E1 as E1'. apply (repair_all_P c cos_sin distA A A0 Aset Aneg A10) in E1; [|eapply Forall_impl; [|exact I10]; intros; apply Aset; assumption].
  destruct (repair_membrane _ _ _ _ _ _ _ _ _ _ _) as [l|] eqn:E2; cbn [bind]; [|discriminate].
  pose proof (membrane_P c cos_sin distA A A0 Aset Aneg A10 _ _ _ _ _ _ _ _ _ E1 E2) as G.
  destruct (repair_diso_contig_list _ _ _) as [[[[s inward] outward] k]|] eqn:E3; cbn [bind]; [|discriminate].
  assert (Fk : bal c = false -> rule_10_percent c = false -> Forall A s).
  { intros B R. pose proof (k_ipo c K) as Ki. rewrite B in Ki. apply repair_none in E1'; try assumption. injection E1' as -> ->. apply membrane_none in E2; try assumption. subst l.
    apply (repair_list_P c A) in E3; [apply E3|exact A0|]. intros u q [X|[]]. injection X as <- <-. split; [|constructor]. eapply Forall_impl; [|exact I10]. intros; apply Aset; assumption. }
  apply (repair_list_P c placed) in E3; [|now right; left|].
  2: { intros u q Hu. destruct (G _ Hu) as [F1 F2]. cbn [fst snd] in *. split; [exact F1|]. eapply Forall_impl; [|exact F2]. intros; now right. }
  destruct E3 as [Fs Ps].
  destruct (convert_ss_ref_to_reduced_sst s ref pdl ss) as [sst|] eqn:E4; cbn [bind]; [|discriminate].
  destruct outward; cbn [negb]; [|intros E; injection E as <- _ _ <-; reflexivity].
  destruct (repair_flexural _ _ _ _ _ _ _ _ _) as [t|] eqn:E5; cbn [bind]; [|discriminate].
  apply C36_flexural_partial in E5; [|exact Ps|intros; apply Hobj]. destruct E5 as (Pt & Mt & _).
  destruct (convert_ss_ref_to_reduced_sst t ref pdl (convert_sst_to_ss sst)) as [sst2|] eqn:E6; cbn [bind]; [|discriminate].
  destruct (check_lay_up_rules _ _ _ _ _ _ _ _) as [[]|] eqn:E7; cbn [bind]; [|discriminate].
  destruct (row (convert_sst_to_ss sst2) ref) as [back|] eqn:E8; cbn [bind]; [|discriminate].
  unfold differs. destruct (list_eq_dec Z.eq_dec back t) as [->|]; cbn [negb guard bind]; [|discriminate].
  intros E. injection E as <- _ <- <-.
  assert (Ft : Forall placed t) by (rewrite Forall_forall in *; intros x Hx; apply Fs; eapply Permutation_in; [exact Pt|exact Hx]).
  set (n := Z.to_nat (last plies 0)).
  assert (Hn : 0 <= last plies 0) by (rewrite <- I9; unfold zlen; lia).
  assert (R : rect n pdl) by (intros r Hr; specialize (I5 r Hr); unfold zlen, n in *; lia).
  assert (Ne : pdl <> []) by (intros ->; cbn in I4; lia). assert (Nes : ss <> []) by (intros ->; cbn in I4'; lia).
  pose proof (convert_mask n pdl ss (last ss []) s ref sst R Ne (get_last [] ss Nes) ltac:(unfold zlen, n in *; lia) I9' (placed_kept s Fs) E4) as M1.
  assert (Nst : sst <> []) by (intros ->; apply mask_len in M1; destruct pdl; [congruence|discriminate]).
  assert (Ml : map kept (last sst []) = map kept (last pdl [])).
  { rewrite <- (last_map (map kept) sst [] []), <- (last_map (map kept) pdl [] []) by assumption. unfold mask in M1. rewrite M1. reflexivity. }
  assert (Ll : length (last sst []) = length (last pdl [])) by (apply (f_equal (@length _)) in Ml; rewrite !map_length in Ml; exact Ml).
  assert (Nl : ~ In (-1) (last sst [])) by (apply kept_all; rewrite Ml, Ll; apply kept_all; exact I6).
  assert (Lp : length (last pdl []) = n) by (apply R; destruct (exists_last Ne) as [u [x ->]]; rewrite last_last; apply in_or_app; right; now left).
  assert (G2 : get (convert_sst_to_ss sst) (-1) = Ok (last sst [])).
  { rewrite (get_last [] (convert_sst_to_ss sst)) by (unfold convert_sst_to_ss; destruct sst; [congruence|discriminate]). unfold convert_sst_to_ss. rewrite (last_map (filter kept) sst [] []) by exact Nst.
    rewrite filter_kept_all by exact Nl. reflexivity. }
  pose proof (convert_mask n pdl _ _ t ref sst2 R Ne G2 ltac:(lia) Nl (placed_kept t Ft) E6) as M2.
  assert (Hb : nth ref (convert_sst_to_ss sst2) [] = t) by (unfold row in E8; destruct (nth_error (convert_sst_to_ss sst2) ref) eqn:E; [injection E8 as <-; apply nth_error_nth, E|discriminate]).
  pose proof (mask_len M2) as L2.
  assert (Lt : length t = countb (fun x => negb (x =? -1)) (nth ref pdl [])).
  { rewrite <- Hb. unfold convert_sst_to_ss. rewrite (nth_indep _ [] (filter kept [])) by (rewrite map_length; lia). rewrite map_nth.
    rewrite (mask_count _ _ (mask_nth _ _ ref M2)). unfold countb. reflexivity. }
  destruct (C24_update_reference_panel n pdl (convert_sst_to_ss sst) (last sst []) t ref R Ne G2 ltac:(lia) Nl ltac:(lia) Lt (placed_kept t Ft)) as (sst3 & E9 & _ & _ & _ & _ & Bl).
  rewrite E6 in E9. injection E9 as <-.
  unfold repaired. cbv zeta. rewrite Hb. split; [exact M2|]. split; [exact Bl|]. split; [reflexivity|]. split; [split; [exact Ft|]|split; [exact Mt|split; [exact E7|]]].
  { destruct (k_set c K) as (_ & Fa & _). rewrite Forall_forall in Fa. intros G0 X. destruct (bal c) eqn:B.
    - apply gate_balanced in E7; [|exact B]. revert X. apply balanced_known; [|exact E7]. intros Y. rewrite Forall_forall in Ft. destruct (Ft _ Y) as [Z|[Z|Z]]; try discriminate. apply Fa in Z. destruct Z; lia.
    - destruct G0 as [G0|G0]; [discriminate|]. specialize (Fk eq_refl G0). rewrite Forall_forall in Fk. destruct (Fk 666) as [Z|Z]; [eapply Permutation_in; [exact Pt|exact X]|discriminate|]. apply Fa in Z. destruct Z; lia. }
  unfold convert_sst_to_ss. rewrite map_length. lia.
Qed.

Lemma mirror_mask (l m : list Z) : map kept l = map kept m -> map (Z.eqb dropped) m = rev (map (Z.eqb dropped) m) -> map kept l = rev (map kept l).
Proof.
  intros -> P. assert (E : map kept m = map negb (map (Z.eqb dropped) m)).
  { rewrite map_map. apply map_ext. intros x. unfold kept, dropped. rewrite Z.eqb_sym. reflexivity. }
  rewrite E, <- map_rev. f_equal. exact P.
Qed.
Lemma repaired_design ss lps sst1 ss1 : repairable c plies ref pdl ss -> repaired ss true lps sst1 ss1 ->
  strip_design (sym c) plies ref sst1 /\ nth ref ss1 [] = plies_of (nth ref sst1 []).
Proof.
  intros [I1 I2 I3 [I4 I4'] I5 I6 I7 I8 [I9 I9'] I10] (M & _ & E & _ & P & _). cbv zeta in *.
  pose proof (mask_len M) as L. pose proof (mask_nth _ _ ref M) as Mr.
  assert (Er : nth ref ss1 [] = plies_of (nth ref sst1 [])).
  { rewrite E. rewrite (nth_indep _ [] (plies_of [])) by (rewrite map_length; lia). apply map_nth. }
  split; [|exact Er]. constructor; try assumption.
  - lia.
  - apply (f_equal (@length _)) in Mr. rewrite !map_length in Mr. unfold zlen. rewrite Mr. apply I5. apply nth_In. lia.
  - unfold zlen. rewrite plies_kept, (mask_count _ _ Mr). exact I7.
  - intros Y. apply mask_pal; [apply (mirror_mask _ _ Mr), I8, Y|]. rewrite <- plies_kept, <- Er. apply P, Y.
Qed.
End Reference.

(* ------------------------------------------------------------------ *)
(** ** C57: the design returned by a successful repair *)
(** the out-of-plane distance of any laminate to the target of the reference panel is below the
    bound 1e10 with which the code initialises its search for the best position of a ply *)
Definition objective_bounded (cos_sin : Z -> nat -> Q) (targets weightsD : list (list Q)) (ref : nat) : Prop :=
  forall u, (oop_objective cos_sin (fun i => nth i (nth ref weightsD []) 0%Q) (fun i => nth (8 + i) (nth ref targets []) 0%Q) u <= 10000000000)%Q.

Ltac open_row E H := unfold row in E; match type of E with context [nth_error ?l ?i] => destruct (nth_error l i) eqn:H; [|discriminate] end.

Theorem C57_repaired_design : forall a c st cos_sin lampam distA targets weights weightsA weightsD panel_weightings plies ref p pdl ss ss' sst' pdl' stage,
  mk_cons a = Ok c -> ~ In dropped (set_of_angles c) -> repairable c plies ref pdl ss -> objective_bounded cos_sin targets weightsD ref ->
  repair_mp c st cos_sin lampam distA targets weights weightsA weightsD panel_weightings plies ref p pdl ss = Ok (true, ss', sst', pdl', stage) ->
  stage = 4%nat /\
  (* a blended table, with the plies of each panel *)
  length sst' = length plies /\ blended sst' /\
  (forall j, (j < length plies)%nat ->
     nth j ss' [] = plies_of (nth j sst' []) /\ zlen (nth j ss' []) = nth j plies 0 /\ zlen (nth j sst' []) = last plies 0 /\ (sym c = true -> palindrome (nth j ss' []))) /\
  (forall j, (S j < length plies)%nat -> sublist (nth j ss' []) (nth (S j) ss' [])) /\
  (* the reference panel passed the final check of the guidelines; 666 stands for an unknown ply *)
  (let t := nth ref ss' [] in
   check_lay_up_rules (fun s => (nth 2 (lampam s) 0%Q, nth 3 (lampam s) 0%Q)) t c false false false false None = Ok tt /\
   Forall (fun x => x = 666 \/ x = 0 \/ In x (set_of_angles c)) t /\ (bal c = true \/ rule_10_percent c = false -> ~ In 666 t)) /\
  (* the other panels satisfy the guidelines that the re-design enforces *)
  (forall j, (j < length plies)%nat -> j <> ref -> enforced c lampam (fun l => distA (fun i => nth i l 0%Q)) (nth j ss' []) /\ nearly_as_balanced c (nth j ss' []) (nth ref ss' [])).
Proof.
  intros a c st cos_sin lampam distA targets weights weightsA weightsD pw plies ref p pdl ss ss' sst' pdl' stage Ha Hset I Hobj. pose proof (mk_cons_consistent a c Ha) as K. unfold repair_mp.
  destruct (repair_reference_panel _ _ _ _ _ _ _ _ _ _ _) as [[[[d1 lps1] sst1] ss1]|] eqn:E1; cbn [bind]; [|discriminate].
  destruct d1; cbn [negb].
  2: { destruct (convert_ss_to_sst _ _); cbn [bind]; [|discriminate]. intros X. injection X as X. discriminate. }
  apply (reference_panel c cos_sin lampam distA targets weightsA weightsD plies ref p pdl K Hset Hobj _ _ _ _ _ I) in E1.
  destruct (repaired_design c lampam plies ref pdl ss lps1 sst1 ss1 I E1) as [D Er].
  destruct E1 as (M & Bl & Ess & Ft & Pt & Ck & Lr). cbv zeta in *.
  destruct (row ss1 ref) as [ss_ref|] eqn:E2; cbn [bind]; [|discriminate].
  assert (nth ref ss1 [] = ss_ref) as Xr by (open_row E2 H; injection E2 as <-; apply nth_error_nth, H).
  destruct (thin_table _ _ _) as [thin|] eqn:T1; cbn [bind]; [|discriminate].
  destruct (repair_thick_to_thin _ _ _ _ _ _ _ _ _ _ _ _ _) as [[d2 [[sst2 lps2] ss2]]|] eqn:E3; cbn [bind]; [|discriminate].
  destruct d2; cbn [negb].
  2: { destruct (convert_ss_to_sst _ _); cbn [bind]; [|discriminate]. intros X. injection X as X. discriminate. }
  destruct (row ss2 ref) as [r2|]; cbn [bind]; [|discriminate]. destruct (differs r2 ss_ref); cbn [guard bind]; [discriminate|].
  destruct (thick_table _ _ _) as [thick|] eqn:T2; cbn [bind]; [|discriminate].
  destruct (repair_thin_to_thick _ _ _ _ _ _ _ _ _ _ _ _ _) as [[d3 [[sst3 lps3] ss3]]|] eqn:E4; cbn [bind]; [|discriminate].
  destruct d3; cbn [negb].
  2: { destruct (convert_ss_to_sst _ _); cbn [bind]; [|discriminate]. intros X. injection X as X. discriminate. }
  destruct (row ss3 ref) as [r3|]; cbn [bind]; [|discriminate]. destruct (differs r3 ss_ref); cbn [guard bind]; [discriminate|].
  destruct (ply_counts _ _ _) as [[]|]; cbn [bind]; [|discriminate]. intros X. injection X as <- <- _ <-.
  destruct (C37_redesign_partial c st lampam (dist distA) targets weights pw plies ref (r_local p) (r_global p) thin thick sst1 lps1 ss1 sst2 lps2 ss2 sst3 lps3 ss3 D Hset Er T1 T2 E3 E4) as (Rr & L3 & B3 & F3 & S3).
  split; [reflexivity|]. split; [exact L3|]. split; [exact B3|]. split; [|split; [exact S3|split]].
  - intros j Hj. destruct (F3 j Hj) as (F4 & F5 & F6 & F7 & _). auto.
  - rewrite Rr. split; [exact Ck|exact Ft].
  - intros j Hj Nj. destruct (F3 j Hj) as (_ & _ & _ & _ & F8). rewrite Rr. exact (F8 Nj).
Qed.

(** when no unknown ply is left, the final check means that the guidelines hold *)
Theorem C57_reference_guidelines : forall a c st cos_sin lampam distA targets weights weightsA weightsD panel_weightings plies ref p pdl ss ss' sst' pdl' stage,
  mk_cons a = Ok c -> ~ In dropped (set_of_angles c) -> repairable c plies ref pdl ss -> objective_bounded cos_sin targets weightsD ref ->
  repair_mp c st cos_sin lampam distA targets weights weightsA weightsD panel_weightings plies ref p pdl ss = Ok (true, ss', sst', pdl', stage) ->
  (contig c = true -> (2 <= n_contig c <= 6)%nat) -> 2 <= nth ref plies 0 ->
  let t := nth ref ss' [] in bal c = true \/ rule_10_percent c = false \/ ~ In 666 t ->
  (dam_tol c = true -> damtol_spec c t) /\ (bal c = true -> balanced t) /\ (diso c = true -> diso_covered c t) /\
  (contig c = true -> contig_stack (n_contig c) t) /\ (rule_10_percent c = true -> ten_spec eps15 false false c t).
Proof.
  intros a c st cos_sin lampam distA targets weights weightsA weightsD pw plies ref p pdl ss ss' sst' pdl' stage Ha Hset I Hobj H Nc L t N.
  destruct (C57_repaired_design _ _ _ _ _ _ _ _ _ _ _ _ _ _ _ _ _ _ _ _ Ha Hset I Hobj H) as (_ & _ & _ & F & _ & (Ck & Fp & Fn) & _). fold t in Ck, Fp, Fn.
  assert (N6 : ~ In 666 t) by (destruct N as [N|[N|N]]; auto).
  destruct (F ref (i_ref _ _ _ _ _ I)) as (_ & Lt & _ & _). fold t in Lt.
  assert (Ft : Forall angle_ok t).
  { destruct (k_set c (mk_cons_consistent a c Ha)) as (_ & Fs & _). rewrite Forall_forall in *. intros x Hx. destruct (Fp x Hx) as [->|[->|X]]; [destruct (N6 Hx)|unfold angle_ok; lia|apply Fs, X]. }
  apply (C09_gate_iff a c _ t false false false false None Ha) in Ck; [|unfold zlen in Lt; lia|exact Ft|exact Nc].
  destruct Ck as (_ & G1 & G2 & _ & G3 & G4 & G5). auto 10.
Qed.

(** the checks that repair_mp itself makes after the second and third stage never fire *)
Theorem C57_own_checks_hold : forall a c st cos_sin lampam distA targets weights weightsA weightsD panel_weightings plies ref p pdl ss thin thick lps1 sst1 ss1 lps2 sst2 ss2 lps3 sst3 ss3,
  mk_cons a = Ok c -> ~ In dropped (set_of_angles c) -> repairable c plies ref pdl ss -> objective_bounded cos_sin targets weightsD ref ->
  repair_reference_panel c cos_sin lampam distA targets weightsA weightsD ref p pdl ss = Ok (true, lps1, sst1, ss1) ->
  thin_table (sym c) plies ref = Ok thin -> thick_table (sym c) plies ref = Ok thick ->
  repair_thick_to_thin c st lampam (dist distA) targets weights panel_weightings plies ref (r_local p) (r_global p) thin (sst1, lps1, ss1) = Ok (true, (sst2, lps2, ss2)) ->
  repair_thin_to_thick c st lampam (dist distA) targets weights panel_weightings plies ref (r_local p) (r_global p) thick (sst2, lps2, ss2) = Ok (true, (sst3, lps3, ss3)) ->
  length ss3 = length plies ->
  repair_mp c st cos_sin lampam distA targets weights weightsA weightsD panel_weightings plies ref p pdl ss = Ok (true, ss3, sst3, pdl, 4%nat).
Proof.
  intros a c st cos_sin lampam distA targets weights weightsA weightsD pw plies ref p pdl ss thin thick lps1 sst1 ss1 lps2 sst2 ss2 lps3 sst3 ss3 Ha Hset I Hobj E1 T1 T2 E3 E4 L3.
  pose proof (mk_cons_consistent a c Ha) as K. unfold repair_mp. rewrite E1. cbn [bind negb].
  apply (reference_panel c cos_sin lampam distA targets weightsA weightsD plies ref p pdl K Hset Hobj _ _ _ _ _ I) in E1.
  destruct (repaired_design c lampam plies ref pdl ss lps1 sst1 ss1 I E1) as [D Er].
  destruct E1 as (M & Bl & Ess & Ft & Pt & Ck & Lr). cbv zeta in *.
  assert (Q1 : row ss1 ref = Ok (nth ref ss1 [])) by (unfold row; rewrite (nth_error_nth' ss1 []) by lia; reflexivity). rewrite Q1. cbn [bind].
  rewrite T1. cbn [bind]. rewrite E3. cbn [bind negb].
  destruct (C37_thick_to_thin_partial _ _ _ _ _ _ _ _ _ _ _ _ _ _ _ _ _ _ _ D T1 E3) as (_ & X). destruct (X eq_refl) as ((_ & _ & Ls) & Kp & _). destruct (Kp ref (le_n _)) as (_ & _ & Kr).
  assert (Q2 : row ss2 ref = Ok (nth ref ss1 [])) by (unfold row; rewrite (nth_error_nth' ss2 []) by lia; rewrite Kr; reflexivity). rewrite Q2. cbn [bind].
  unfold differs. destruct (list_eq_dec Z.eq_dec _ _); [|congruence]. cbn [negb guard bind]. rewrite T2. cbn [bind]. rewrite E4. cbn [bind negb].
  destruct (C37_redesign_partial c st lampam (dist distA) targets weights pw plies ref (r_local p) (r_global p) thin thick sst1 lps1 ss1 sst2 lps2 ss2 sst3 lps3 ss3 D Hset Er T1 T2 E3 E4) as (Rr & _ & B3 & F3 & S3).
  assert (Hr : (ref < length plies)%nat) by apply (i_ref _ _ _ _ _ I).
  assert (Q3 : row ss3 ref = Ok (nth ref ss1 [])) by (unfold row; rewrite (nth_error_nth' ss3 []) by lia; rewrite Rr; reflexivity). rewrite Q3. cbn [bind].
  destruct (list_eq_dec Z.eq_dec _ _); [|congruence]. cbn [negb guard bind].
  assert (C : forall l i, (forall k, (k < length l)%nat -> (i + k < length plies)%nat /\ nth k l 0 = nth (i + k) plies 0) -> ply_counts i l ss3 = Ok tt).
  { induction l as [|x l IH]; intros i Hl; cbn [ply_counts]; [reflexivity|]. destruct (Hl 0%nat ltac:(cbn; lia)) as [H1 H2]. cbn [nth] in H2. rewrite Nat.add_0_r in *.
    unfold row. rewrite (nth_error_nth' ss3 []) by lia. cbn [bind]. destruct (F3 i H1) as (_ & _ & Cn & _). rewrite Cn, H2, Z.eqb_refl. cbn [negb guard bind].
    apply IH. intros k Hk. destruct (Hl (S k) ltac:(cbn; lia)) as [H3 H4]. cbn [nth] in H4. replace (S i + k)%nat with (i + S k)%nat by lia. auto. }
  rewrite C; [reflexivity|]. intros k Hk. auto.
Qed.

(** what is returned when a stage fails *)
Theorem C57_failed_repair : forall a c st cos_sin lampam distA targets weights weightsA weightsD panel_weightings plies ref p pdl ss ss' sst' pdl' stage,
  mk_cons a = Ok c -> ~ In dropped (set_of_angles c) -> repairable c plies ref pdl ss -> objective_bounded cos_sin targets weightsD ref ->
  repair_mp c st cos_sin lampam distA targets weights weightsA weightsD panel_weightings plies ref p pdl ss = Ok (false, ss', sst', pdl', stage) ->
  pdl' = pdl /\ convert_ss_to_sst ss' pdl = Ok sst' /\
  ((stage = 1%nat /\ ss' = ss) \/
   (stage = 2%nat /\ blended_over pdl sst' /\ forall j, (j < length plies)%nat -> nth j ss' [] = plies_of (nth j sst' [])) \/
   stage = 3%nat).
Proof.
  intros a c st cos_sin lampam distA targets weights weightsA weightsD pw plies ref p pdl ss ss' sst' pdl' stage Ha Hset I Hobj. pose proof (mk_cons_consistent a c Ha) as K. unfold repair_mp.
  destruct (repair_reference_panel _ _ _ _ _ _ _ _ _ _ _) as [[[[d1 lps1] sst1] ss1]|] eqn:E1; cbn [bind]; [|discriminate].
  apply (reference_panel c cos_sin lampam distA targets weightsA weightsD plies ref p pdl K Hset Hobj _ _ _ _ _ I) in E1.
  destruct d1; cbn [negb].
  2: { cbn [repaired] in E1. subst ss1. destruct (convert_ss_to_sst _ _) as [s|] eqn:E; cbn [bind]; [|discriminate]. intros X. injection X as <- <- <- <-. auto. }
  destruct (repaired_design c lampam plies ref pdl ss lps1 sst1 ss1 I E1) as [D Er].
  destruct E1 as (M & Bl & Ess & Ft & Pt & Ck & Lr). cbv zeta in *.
  destruct (row ss1 ref) as [ss_ref|] eqn:E2; cbn [bind]; [|discriminate].
  destruct (thin_table _ _ _) as [thin|] eqn:T1; cbn [bind]; [|discriminate].
  destruct (repair_thick_to_thin _ _ _ _ _ _ _ _ _ _ _ _ _) as [[d2 [[sst2 lps2] ss2]]|] eqn:E3; cbn [bind]; [|discriminate].
  destruct d2; cbn [negb].
  2: { destruct (C37_thick_to_thin_partial _ _ _ _ _ _ _ _ _ _ _ _ _ _ _ _ _ _ _ D T1 E3) as (X & _). specialize (X eq_refl). injection X as -> -> ->.
       destruct I as [I1 I2 I3 [I4 I4'] I5 I6 I7 I8 [I9 I9'] I10].
       assert (Hn : 0 <= last plies 0) by (rewrite <- I9; unfold zlen; lia).
       assert (R : rect (Z.to_nat (last plies 0)) pdl) by (intros r Hr; specialize (I5 r Hr); unfold zlen in *; lia).
       assert (Ne : pdl <> []) by (intros ->; cbn in I4; lia).
       destruct (convert_ss_to_sst ss1 pdl) as [s|] eqn:E; cbn [bind]; [|discriminate]. intros X. injection X as <- <- <- <-. split; [reflexivity|]. split; [exact E|].
       right; left. split; [reflexivity|]. subst ss1. change (map plies_of sst1) with (convert_sst_to_ss sst1) in E.
       rewrite (C23_stacks_rebuild_the_table _ pdl sst1 R Ne Bl I6) in E. injection E as <-. split; [exact Bl|].
       intros j Hj. pose proof (mask_len M). rewrite (nth_indep _ [] (plies_of [])) by (rewrite map_length; lia). apply map_nth. }
  destruct (row ss2 ref) as [r2|]; cbn [bind]; [|discriminate]. destruct (differs r2 ss_ref); cbn [guard bind]; [discriminate|].
  destruct (thick_table _ _ _) as [thick|] eqn:T2; cbn [bind]; [|discriminate].
  destruct (repair_thin_to_thick _ _ _ _ _ _ _ _ _ _ _ _ _) as [[d3 [[sst3 lps3] ss3]]|] eqn:E4; cbn [bind]; [|discriminate].
  destruct d3; cbn [negb].
  2: { destruct (convert_ss_to_sst ss3 pdl) as [s|] eqn:E; cbn [bind]; [|discriminate]. intros X. injection X as <- <- <- <-. auto. }
  destruct (row ss3 ref) as [r3|]; cbn [bind]; [|discriminate]. destruct (differs r3 ss_ref); cbn [guard bind]; [discriminate|].
  destruct (ply_counts _ _ _) as [[]|]; cbn [bind]; [|discriminate]. intros X. injection X as X. discriminate.
Qed.


(* ---------------- concrete cases ---------------- *)
Definition par_mp (flexural : bool) : rparams :=
  {| r_membrane := false; r_flexural := flexural; r_p_A := 100; r_n_D1 := 6; r_n_D2 := 10; r_n_D3 := 1; r_local := 3; r_global := 4; r_fuel := 100 |}.
Definition mp_run (c : cons) (flexural : bool) (plies : list Z) (ref : nat) (pdl ss : list (list Z)) :=
  repair_mp c (chain_strip (length plies)) cos_sin_4 lp_4 (fun _ => 0%Q) (all [0; 0; 0; 0]%Q plies) (all [1; 1; 1; 1]%Q plies) (all [1; 1; 1; 1]%Q plies) (all [1; 1; 1; 1]%Q plies)
    (all 1%Q plies) plies ref (par_mp flexural) pdl ss.
Lemma bounded_here plies ref : (ref < length plies)%nat -> objective_bounded cos_sin_4 (all [0; 0; 0; 0]%Q plies) (all [1; 1; 1; 1]%Q plies) ref.
Proof.
  intros H u.
  assert (C : forall (x : list Q) l, (ref < length l)%nat -> nth ref (all x l) [] = x).
  { intros x l Hl. unfold all. apply nth_error_nth. rewrite nth_error_map, (nth_error_nth' l 0) by exact Hl. reflexivity. }
  rewrite !C by exact H. apply oop_objective_bound; [apply cos_sin_4_bound| |]; intros i; cbn [Nat.add]; do 4 (destruct i as [|i]; [cbn; lra|]); destruct i; cbn; lra.
Qed.
Lemma three_panels_repairable c : sym c = true -> (forall x, In x [0; 45; -45; 90] -> In x (set_of_angles c)) -> repairable c [8; 12; 16] 1 three_panels (map plies_of three_panels).
Proof.
  intros Y A. constructor; try reflexivity; try (cbn; lia).
  - repeat constructor.
  - intros _ [|[|[|i]]] Hi; try reflexivity. cbn in Hi. lia.
  - intros r [<-|[<-|[<-|[]]]]; reflexivity.
  - unfold dropped. cbn. lia.
  - split; [reflexivity|]. unfold dropped. cbn. lia.
  - cbn [nth map three_panels]. apply Forall_forall. intros x Hx. apply A. vm_compute in Hx. cbn. intuition.
Qed.
(** hypotheses of [C57_repaired_design], [C57_reference_guidelines], [C57_own_checks_hold] *)
Example C57_example : exists c ss' sst', mk_cons (args_re true true true) = Ok c /\ ~ In dropped (set_of_angles c) /\
  repairable c [8; 12; 16] 1 three_panels (map plies_of three_panels) /\
  objective_bounded cos_sin_4 (all [0; 0; 0; 0]%Q [8; 12; 16]) (all [1; 1; 1; 1]%Q [8; 12; 16]) 1 /\
  mp_run c true [8; 12; 16] 1 three_panels (map plies_of three_panels) = Ok (true, ss', sst', three_panels, 4%nat) /\
  nth 1 ss' [] = [45; 90; 0; -45; 0; 90; 90; 0; -45; 0; 90; 45].
Proof.
  destruct (mk_cons (args_re true true true)) as [c|] eqn:E; [|vm_compute in E; discriminate]. exists c. vm_compute in E. injection E as <-.
  do 2 eexists. split; [reflexivity|]. split; [cbn; intuition discriminate|]. split; [apply three_panels_repairable; [reflexivity|cbn; intuition]|].
  split; [apply bounded_here; cbn; lia|]. split; [vm_compute; reflexivity|reflexivity].
Qed.

(* ------------------------------------------------------------------ *)
(** ** C38 *)
(** the layout of a table: where its plies are dropped *)
Definition layout_of (pdl sst : list (list Z)) : Prop :=
  length pdl = length sst /\ forall i j, nth j (nth i pdl []) 0 = dropped <-> nth j (nth i sst []) 0 = dropped.

(** the layout that is returned is the one that was given *)
Theorem C38_layout_returned : forall c st cos_sin lampam distA targets weights weightsA weightsD panel_weightings plies ref p pdl ss done ss' sst' pdl' stage,
  repair_mp c st cos_sin lampam distA targets weights weightsA weightsD panel_weightings plies ref p pdl ss = Ok (done, ss', sst', pdl', stage) -> pdl' = pdl.
Proof.
  intros c st cos_sin lampam distA targets weights weightsA weightsD pw plies ref p pdl ss done ss' sst' pdl' stage. unfold repair_mp.
  destruct (repair_reference_panel _ _ _ _ _ _ _ _ _ _ _) as [[[[d1 lps1] sst1] ss1]|]; cbn [bind]; [|discriminate].
  destruct d1; cbn [negb]; [|destruct (convert_ss_to_sst _ _); cbn [bind]; [intros X; injection X; congruence|discriminate]].
  destruct (row _ _); cbn [bind]; [|discriminate]. destruct (thin_table _ _ _); cbn [bind]; [|discriminate].
  destruct (repair_thick_to_thin _ _ _ _ _ _ _ _ _ _ _ _ _) as [[d2 [[sst2 lps2] ss2]]|]; cbn [bind]; [|discriminate].
  destruct d2; cbn [negb]; [|destruct (convert_ss_to_sst _ _); cbn [bind]; [intros X; injection X; congruence|discriminate]].
  destruct (row _ _); cbn [bind]; [|discriminate]. destruct (guard _ _); cbn [bind]; [|discriminate]. destruct (thick_table _ _ _); cbn [bind]; [|discriminate].
  destruct (repair_thin_to_thick _ _ _ _ _ _ _ _ _ _ _ _ _) as [[d3 [[sst3 lps3] ss3]]|]; cbn [bind]; [|discriminate].
  destruct d3; cbn [negb]; [|destruct (convert_ss_to_sst _ _); cbn [bind]; [intros X; injection X; congruence|discriminate]].
  destruct (row _ _); cbn [bind]; [|discriminate]. destruct (guard _ _); cbn [bind]; [|discriminate]. destruct (ply_counts _ _ _); cbn [bind]; [|discriminate].
  intros X; injection X; congruence.
Qed.
(** it is that of the returned table when the second stage fails *)
Theorem C38_layout_partial : forall a c st cos_sin lampam distA targets weights weightsA weightsD panel_weightings plies ref p pdl ss ss' sst' pdl',
  mk_cons a = Ok c -> ~ In dropped (set_of_angles c) -> repairable c plies ref pdl ss -> objective_bounded cos_sin targets weightsD ref ->
  repair_mp c st cos_sin lampam distA targets weights weightsA weightsD panel_weightings plies ref p pdl ss = Ok (false, ss', sst', pdl', 2%nat) ->
  layout_of pdl' sst'.
Proof.
  intros a c st cos_sin lampam distA targets weights weightsA weightsD pw plies ref p pdl ss ss' sst' pdl' Ha Hset I Hobj H.
  destruct (C57_failed_repair _ _ _ _ _ _ _ _ _ _ _ _ _ _ _ _ _ _ _ _ Ha Hset I Hobj H) as (-> & _ & [[X _]|[[_ [(B1 & B2 & B3 & _) _]]|X]]); try discriminate.
  split; [lia|]. intros i j. destruct (lt_dec i (length pdl)) as [Hi|Hi].
  - specialize (B2 i Hi). specialize (B3 i j Hi). unfold dropped. destruct (lt_dec j (length (nth i pdl []))) as [Hj|Hj].
    + rewrite (nth_indep (nth i pdl []) 0 (-1)), (nth_indep (nth i sst' []) 0 (-1)) by lia. tauto.
    + rewrite (nth_overflow (nth i pdl [])) by lia. rewrite (nth_overflow (nth i sst' [])) by lia. tauto.
  - rewrite (nth_overflow pdl) by lia. rewrite (nth_overflow sst') by lia. tauto.
Qed.

(** after a successful repair it is in general not the layout of the returned design *)
Theorem C38_layout_refuted : ~ (forall a c plies ref pdl ss ss' sst' pdl' stage,
  mk_cons a = Ok c -> ~ In dropped (set_of_angles c) -> repairable c plies ref pdl ss ->
  objective_bounded cos_sin_4 (all [0; 0; 0; 0]%Q plies) (all [1; 1; 1; 1]%Q plies) ref ->
  mp_run c true plies ref pdl ss = Ok (true, ss', sst', pdl', stage) -> layout_of pdl' sst').
Proof.
  intros H. destruct C57_example as (c & ss' & sst' & E & N & I & B & R & _). specialize (H _ c _ _ _ _ _ _ _ _ E N I B R). destruct H as [_ H].
  vm_compute in E. injection E as <-. vm_compute in R. injection R as <- <-. specialize (H 0%nat 0%nat). vm_compute in H. destruct H as [_ H]. specialize (H eq_refl). discriminate.
Qed.

(** when the third stage fails, the table that is returned is not the one of the returned stacks *)
Definition args_mp3 : cargs := {|
  a_sym := true; a_bal := false; a_oopo := false; a_dam_tol := true;
  a_rule_10_percent := false; a_rule_10_Abdalla := false; a_percent_Abdalla := 0;
  a_combine_45_135 := true; a_calc_combine_45_135 := true;
  a_percent_0 := 0; a_percent_45 := 0; a_percent_90 := 0; a_percent_135 := 0; a_percent_45_135 := 0;
  a_diso := true; a_contig := true; a_n_contig := 4; a_delta_angle := 45;
  a_dam_tol_rule := 2; a_set_of_angles := [45; -45]; a_min_drop := 2;
  a_pdl_spacing := true; a_covering := true; a_n_covering := 2 |}.
Definition pdl_mp3 : list (list Z) := [[-1;1;1;-1;-1;1;1;-1]; [1;1;1;-1;-1;1;1;1]; [1;1;1;1;1;1;1;1]].
Definition ss_mp3 : list (list Z) := [[-45;-45;-45;-45]; [45;-45;-45;-45;-45;45]; [45;-45;-45;-45;-45;-45;-45;45]].
Lemma mp3_repairable c : sym c = true -> (forall x, In x [45; -45] -> In x (set_of_angles c)) -> repairable c [4; 6; 8] 1 pdl_mp3 ss_mp3.
Proof.
  intros Y A. constructor; try reflexivity; try (cbn; lia).
  - repeat constructor.
  - intros _ [|[|[|i]]] Hi; try reflexivity. cbn in Hi. lia.
  - intros r [<-|[<-|[<-|[]]]]; reflexivity.
  - unfold dropped. cbn. lia.
  - split; [reflexivity|]. unfold dropped. cbn. lia.
  - apply Forall_forall. intros x Hx. apply A. vm_compute in Hx. cbn. intuition.
Qed.
Theorem C57_failed_third_stage_refuted : ~ (forall a c plies ref pdl ss ss' sst' pdl',
  mk_cons a = Ok c -> ~ In dropped (set_of_angles c) -> repairable c plies ref pdl ss ->
  objective_bounded cos_sin_4 (all [0; 0; 0; 0]%Q plies) (all [1; 1; 1; 1]%Q plies) ref ->
  mp_run c false plies ref pdl ss = Ok (false, ss', sst', pdl', 3%nat) -> forall j, (j < length plies)%nat -> nth j ss' [] = plies_of (nth j sst' [])).
Proof.
  intros H. destruct (mk_cons args_mp3) as [c|] eqn:E; [|vm_compute in E; discriminate].
  assert (R : exists ss' sst', mp_run c false [4; 6; 8] 1 pdl_mp3 ss_mp3 = Ok (false, ss', sst', pdl_mp3, 3%nat) /\ nth 0 ss' [] = [45; -45; -45; 45] /\ nth 0 sst' [] = [-1;-45;-45;-1;-1;-45;-45;-1]).
  { vm_compute in E. injection E as <-. do 2 eexists. split; [vm_compute; reflexivity|]. split; reflexivity. }
  destruct R as (ss' & sst' & R & R1 & R2).
  specialize (H args_mp3 c [4; 6; 8] 1%nat pdl_mp3 ss_mp3 ss' sst' pdl_mp3 E).
  assert (N : ~ In dropped (set_of_angles c)) by (vm_compute in E; injection E as <-; cbn; intuition discriminate).
  assert (I : repairable c [4; 6; 8] 1 pdl_mp3 ss_mp3) by (apply mp3_repairable; vm_compute in E; injection E as <-; [reflexivity|cbn; intuition]).
  specialize (H N I (bounded_here [4; 6; 8] 1 ltac:(cbn; lia)) R 0%nat ltac:(cbn; lia)). rewrite R1, R2 in H. discriminate.
Qed.

Print Assumptions C57_repaired_design.
Print Assumptions C57_reference_guidelines.
Print Assumptions C57_own_checks_hold.
Print Assumptions C57_failed_repair.
Print Assumptions C57_failed_third_stage_refuted.
Print Assumptions C38_layout_returned.
Print Assumptions C38_layout_partial.
Print Assumptions C38_layout_refuted.
