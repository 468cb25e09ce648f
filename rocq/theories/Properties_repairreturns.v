(* Properties_repairreturns.v - C97: the repair of a multi-panel design always answers. *)
From Coq Require Import Lqa Sorted.
From Verif Require Import Base Uniq Constraints Guidelines SpecGuidelines GuidelinesProofs ConstraintsProofs GateProofs Properties_guidelines Divers Spacing Strip StripProofs Format FormatProofs
  Search Objectives Repair10 Repair10Proofs RepairDiso RepairDisoProofs Membrane MembraneProofs Flexural FlexuralProofs Abdalla10 SpecRedesign Redesign RedesignProofs RedesignThick RepairMp RepairMpProofs
  Properties_format Properties_repair10 Properties_repairdiso Properties_membrane Properties_flexural Properties_redesign Properties_repairmp Properties_repairss RedesignRunsProofs Properties_redesignruns.
Local Open Scope Z_scope.

(** what is asked of the rules, of the parameters and of the laminate of the reference panel: the
    10% rule is on ply counts, the in-plane refinement is off (it raises a NameError), 0 degrees
    is allowed, the sizes are those for which the repair for disorientation and contiguity is
    correct (C35), the surface plies are not asked to change, and a laminate with damage
    tolerance already satisfies it *)
Record plain_repair (c : cons) (p : rparams) (s : list Z) : Prop := {
  q_abdalla : (rule_10_percent c && rule_10_Abdalla c)%bool = false;
  q_membrane : r_membrane p = false;
  q_zero : In 0 (set_of_angles c);
  q_diso : diso c = true -> 0 <= delta_angle c;
  q_contig : contig c = true -> (2 <= n_contig c <= 6)%nat /\
     (if sym c then n_contig c <= r_n_D1 p + 1 /\ n_contig c <= length s / 2 else n_contig c <= r_n_D1 p /\ n_contig c + 2 <= length s)%nat;
  q_positions : diso c = true \/ contig c = true -> (2 <= r_n_D2 p)%nat;
  q_room : room c (length s);
  q_surface : let first := fst (repair_10_bal c s (calc_mini_10 c (length s))) in nth 0 first 0 <> 666 /\ (sym c = false -> nth (length s - 1) first 0 <> 666);
  q_damtol : dam_tol c = true -> sym c = true /\ dam_tol_rule c = 1%nat /\ damtol1 s;
  q_size : (3 <= length s)%nat /\ (sym c = true -> palindrome s /\ Nat.even (length s) = true) /\
     (sym c = false -> (1 <= r_n_D1 p)%nat /\ Properties_repairdiso.fully_checked c (r_n_D1 p) (length s)) }.

Section Reference.
Variables (a : cargs) (c : cons) (cos_sin : Z -> nat -> Q) (lampam : list Z -> list Q) (distA : vec -> Q).
Variables (targets weightsA weightsD : list (list Q)) (plies : list Z) (ref : nat) (p : rparams) (pdl : list (list Z)).
Hypothesis M : mk_cons a = Ok c.
Hypothesis Hset : ~ In dropped (set_of_angles c).
Hypothesis Hobj : objective_bounded cos_sin targets weightsD ref.
Hypothesis Hip : bal c = true -> forall s, balanced s -> ipo_small (nth 2 (lampam s) 0%Q, nth 3 (lampam s) 0%Q).

Lemma ten_weaken e e' x y s : (e <= e')%Q -> ten_spec e x y c s -> ten_spec e' x y c s.
Proof using. clear. intros H (A1 & A2 & A3 & A4 & A5). repeat split; intros; try (destruct (A1 H0)); try (destruct (A3 H0)); try specialize (A2 H0); try specialize (A4 H0); lra. Qed.

(** the refinement of the flexural stiffness answers *)
Lemma flexural_answers co ta n_D2 n_D3 sw t : (contig c = true -> (2 <= n_contig c <= 6)%nat) -> (diso c = true \/ contig c = true -> (2 <= n_D2)%nat) ->
  t <> [] -> Forall (fun x => In x (set_of_angles c)) t -> (sym c = true -> t = rev t) -> (sym c = true -> Nat.even (length t) = true) ->
  (forall u, oop_objective cos_sin co ta u <= 10000000000)%Q ->
  exists t', repair_flexural c cos_sin co ta true sw n_D2 n_D3 t = Ok t'.
Proof using.
  clear. intros Nc N2 Ne Al P Ev B. unfold repair_flexural. destruct (sw && _)%bool; [|eauto].
  revert t Ne Al P Ev. induction n_D3 as [|k IH]; intros t Ne Al P Ev; cbn [flexural_loop]; [eauto|].
  assert (N : forall s, Permutation s t -> (sym c = true -> s = rev s) -> exists t', flexural_loop c cos_sin co ta true n_D2 k s = Ok t').
  { intros s Ps Pal. apply IH.
    - intros ->. apply Permutation_length in Ps. destruct t; [congruence|discriminate].
    - rewrite Forall_forall in *. intros x Hx. apply Al. eapply Permutation_in; [exact Ps|exact Hx].
    - exact Pal.
    - intros Y. rewrite (Permutation_length Ps). auto. }
  destruct (diso c || contig c)%bool eqn:D.
  - destruct (C36_flexural_swap_total c cos_sin co ta t Al Ne P) as [s1 E1].
    { intros Y O. specialize (Ev Y). rewrite <- Nat.negb_even, Ev in O. discriminate O. }
    rewrite E1. cbn [between bind]. destruct (C36_flexural_swap _ _ _ _ _ _ P E1) as [P1 R1].
    assert (Pal1 : sym c = true -> s1 = rev s1) by (intros Y; apply (ro_sym _ _ _ (R1 (or_introl Y)) Y)).
    assert (Al1 : Forall (fun x => In x (set_of_angles c)) s1).
    { rewrite Forall_forall in *. intros x Hx. apply Al. eapply Permutation_in; [exact P1|exact Hx]. }
    destruct (C36_flexural_shift_total c cos_sin co ta true n_D2 s1) as [s2 E2]; auto.
    { intros _. apply N2. apply orb_true_iff, D. }
    unfold repair_flexural_2. rewrite E2. cbn [bind]. destruct (C36_flexural_shift _ _ _ _ _ _ _ _ Pal1 (B s1) E2) as [R2 _].
    apply N; [etransitivity; [apply (ro_plies _ _ _ R2)|exact P1]|intros Y; apply (ro_sym _ _ _ R2 Y)].
  - destruct (C36_flexural_shift_total c cos_sin co ta false n_D2 t) as [s2 E2]; auto; [discriminate|].
    unfold repair_flexural_3. rewrite E2. cbn [bind]. destruct (C36_flexural_shift _ _ _ _ _ _ _ _ P (B t) E2) as [R2 _].
    apply N; [apply (ro_plies _ _ _ R2)|intros Y; apply (ro_sym _ _ _ R2 Y)].
Qed.

(** the repair for disorientation and contiguity of the laminate with unknown plies *)
Lemma contiguity_answers s s' q : plain_repair c p s -> Forall angle_ok s -> repair_10_bal c s (calc_mini_10 c (length s)) = (s', q) ->
  exists r inward outward, repair_diso_contig c (r_n_D1 p) s' q = Ok (r, inward, outward, []) /\
    length r = length s /\ complete r /\ (sym c = true -> r = rev r) /\ (ipo c = true -> balanced r) /\ ten_spec 0 false false c r /\
    (dam_tol c = true -> nth 0 r 0 = nth 0 s 0) /\
    (outward = true -> (diso c = true -> diso_stack (delta_angle c) r) /\ (contig c = true -> contig_stack (n_contig c) r)).
Proof using M.
  intros [Q1 Q2 Q3 Q4 Q5 Q6 Q7 Q8 Q9 (Q10 & Q11 & Q12)] Al E. pose proof (mk_cons_consistent a c M) as K. rewrite E in Q8. cbn [fst] in Q8. destruct Q8 as [S1 S2].
  assert (Ne : s <> []) by (intros ->; cbn in Q10; lia).
  assert (Pal : sym c = true -> s = rev s) by (intros Y; apply (Q11 Y)).
  destruct (C34_repair a c s s' q M Q1 Ne Al Pal Q7 E) as (L & P & Sm & _).
  destruct (first_size a c s s' q M Q1 Ne Al Pal Q7 E) as [Lq Fk]. unfold slot_count in Lq, Fk.
  destruct (first_queue_ok a c s s' q M Q1 Al E (fun _ _ => 0%Q) (fun _ => 0%Q) 0) as (Fq & Fs' & _).
  assert (T : ~ two_protected c) by (intros [X1 X2]; destruct (Q9 X1) as (_ & X3 & _); rewrite X3 in X2; destruct X2; lia).
  assert (Nk : n_known_outer c = 1%nat) by (destruct (n_outer_out_spec c) as [_ X]; exact (X T)).
  assert (R : contig_supported c) by (intros Co; split; [apply (Q5 Co)|apply (k_contig_on c K Co)]).
  destruct (sym c) eqn:Sy.
  - destruct (C35_symmetric_partial c (r_n_D1 p) s' q Sy R Q4 (P eq_refl)) as (r & inw & outw & E5 & L1 & P1 & F1 & Pm1 & Md1 & Dt1 & G1 & _).
    + rewrite Nk. lia.
    + rewrite Nk. intros i Hi. assert (i = 0%nat) as -> by lia. exact S1.
    + unfold first_half. rewrite L. exact Lq.
    + unfold first_half. rewrite L. exact Fk.
    + exact Fq.
    + rewrite L. intros O. apply (middle_known a c s s' q M Q1 Ne Al); [rewrite Sy; exact Pal|exact Q7|exact E|exact Sy|exact O].
    + exists r, inw, outw. split; [exact E5|]. split; [lia|]. split; [exact F1|]. split; [intros _; exact P1|].
      destruct (completed a c s s' q M Q1 Ne Al ltac:(rewrite Sy; exact Pal) Q7 E r ltac:(lia) ltac:(intros _; exact P1)) as [Bs Ts].
      { unfold slot_count. rewrite Sy. unfold first_half in Pm1. rewrite L1, L in Pm1. exact Pm1. }
      { intros _. rewrite <- L. exact Md1. }
      split; [exact Bs|]. split; [exact Ts|]. split.
      { intros Dt. rewrite (proj1 (Dt1 Dt)). destruct (Sm 0%nat ltac:(lia)) as [X|[X|(_ & X & _)]]; [contradiction|exact X|lia]. }
      intros Ho. destruct G1 as [D1 C1]; [right; exact Ho|]. split; [intros Di; exact (proj1 (D1 Di) T)|].
      intros Co. destruct (Q5 Co) as (_ & X1 & X2). apply C1; [exact X1|rewrite Nk, L; lia|intros X; contradiction|exact Co].
  - destruct (Q12 eq_refl) as [X1 X2].
    destruct (C35_asymmetric_partial c (r_n_D1 p) s' q Sy R) as (r & inw & outw & E5 & L1 & F1 & Pm1 & _ & G1).
    + rewrite Nk. lia.
    + rewrite Nk. intros i Hi. assert (i = 0%nat) as -> by lia. split; [exact S1|]. rewrite L, Nat.sub_0_r. apply S2. reflexivity.
    + rewrite firstn_all2 in Lq by lia. exact Lq.
    + rewrite firstn_all2 in Fk by lia. exact Fk.
    + exact Fq.
    + exists r, inw, outw. split; [exact E5|]. split; [lia|]. split; [exact F1|]. split; [discriminate|].
      destruct (completed a c s s' q M Q1 Ne Al ltac:(rewrite Sy; discriminate) Q7 E r ltac:(lia) ltac:(rewrite Sy; discriminate)) as [Bs Ts].
      { unfold slot_count. rewrite Sy. rewrite (firstn_all2 r), (firstn_all2 s') by lia. exact Pm1. }
      { rewrite Sy. discriminate. }
      split; [exact Bs|]. split; [exact Ts|]. split; [intros Dt; destruct (Q9 Dt); discriminate|].
      intros Ho. destruct G1 as [D1 C1]; [right; exact Ho|exact X1|rewrite L; exact X2|]. split; [intros Di; exact (proj1 (D1 Di) T)|].
      intros Co. destruct (Q5 Co) as (_ & X3 & X4). apply C1; [exact X3|rewrite Nk, L; lia|intros X; contradiction|exact Co].
Qed.

(** the final check of the laminate of the reference panel does not fire *)
Lemma gate_answers s s1 t : plain_repair c p s -> length s1 = length s -> complete s1 ->
  (ipo c = true -> balanced s1) -> ten_spec 0 false false c s1 -> (dam_tol c = true -> nth 0 s1 0 = nth 0 s 0) ->
  (diso c = true -> diso_stack (delta_angle c) t) -> (contig c = true -> contig_stack (n_contig c) t) ->
  Permutation t s1 -> (sym c = true -> t = rev t) -> (dam_tol c = true -> nth 0 t 0 = nth 0 s1 0) ->
  check_lay_up_rules (lampamA34 lampam) t c false false false false None = Ok tt.
Proof using M Hip.
  intros [Q1 Q2 Q3 Q4 Q5 Q6 Q7 Q8 Q9 (Q10 & Q11 & Q12)] L1 F1 B1 T1 O1 D G Pm Pal O2. pose proof (mk_cons_consistent a c M) as K.
  pose proof (Permutation_length Pm) as Lt.
  assert (Bt : bal c = true -> balanced t).
  { intros B. apply (balanced_perm s1 t); [symmetry; exact Pm|]. apply B1. rewrite (k_ipo c K). exact B. }
  apply (C09_gate_iff a c _ t false false false false None M); [lia| |intros Co; apply (Q5 Co)|].
  { unfold complete in F1. rewrite Forall_forall in *. intros x Hx. apply F1. eapply Permutation_in; [exact Pm|exact Hx]. }
  split; [discriminate|]. split; [|split; [|split; [|split; [|split]]]].
  - intros Dt. destruct (Q9 Dt) as (Y & R & X1 & X2). unfold damtol_spec. rewrite R. split; [|split; discriminate]. intros _.
    destruct X1 as (x & m & E & Hx). assert (nth 0 t 0 = x) as N0 by (rewrite (O2 Dt), (O1 Dt), E; reflexivity).
    destruct t as [|y t']; [cbn [length] in Lt; lia|]. cbn [nth] in N0. subst y. split; [exists x, t'; auto|].
    exists (rev t'), x. split; [rewrite (Pal Y); reflexivity|exact Hx].
  - intros B _. exact (Bt B).
  - intros I _. unfold lampamA34. apply Hip; [rewrite <- (k_ipo c K); exact I|]. apply Bt. rewrite <- (k_ipo c K). exact I.
  - intros Di. unfold diso_covered. destruct (dam_tol c) eqn:Dt; [|exact (D Di)]. destruct (Q9 eq_refl) as (_ & R & _). rewrite R. exact I.
  - exact G.
  - intros _. apply (ten_perm _ _ _ _ s1 t); [symmetry; exact Pm|]. apply (ten_weaken 0%Q eps15); [discriminate|exact T1].
Qed.

(** the repair of the reference panel answers, and a repaired laminate is complete *)
Lemma reference_answers ss : repairable c plies ref pdl ss -> zlen (nth ref ss []) = nth ref plies 0 -> plain_repair c p (nth ref ss []) ->
  (ref < length targets)%nat -> (ref < length weightsA)%nat -> (ref < length weightsD)%nat ->
  exists done lps sst1 ss1, repair_reference_panel c cos_sin lampam distA targets weightsA weightsD ref p pdl ss = Ok (done, lps, sst1, ss1) /\
    (done = true -> forall x, In x (nth ref ss1 []) -> In x (set_of_angles c)) /\ (done = true -> lps = map lampam ss1).
Proof using M Hset Hobj Hip.
  intros I Ls PR Ht HA HD. pose proof (mk_cons_consistent a c M) as K. set (s := nth ref ss []) in *.
  pose proof I as [I1 I2 I3 [I4 I4'] I5 I6 I7 I8 [I9 I9'] I10]. destruct (k_set c K) as (_ & Fa & Kn & _ & K10). rewrite Forall_forall in Fa.
  assert (Al : Forall angle_ok s) by (rewrite Forall_forall in *; intros x Hx; apply Fa, I10, Hx).
  unfold repair_reference_panel.
  assert (Er : row ss ref = Ok s) by (unfold row; rewrite (nth_error_nth' ss []) by lia; reflexivity). rewrite Er. cbn [bind].
  assert (Row : forall l : list (list Q), (ref < length l)%nat -> row l ref = Ok (nth ref l [])) by (intros l Hl; unfold row; rewrite (nth_error_nth' l [] Hl); reflexivity).
  rewrite (Row targets Ht), (Row weightsA HA), (Row weightsD HD). cbn [bind]. cbv zeta.
  destruct (repair_10_bal c s (calc_mini_10 c (length s))) as [s' q] eqn:E.
  destruct (first_queue_ok a c s s' q M (q_abdalla _ _ _ PR) Al E cos_sin distA (r_fuel p)) as (Fq & Fs' & E1). rewrite E1. cbn [bind fst snd].
  set (A := fun x => x = 0 \/ In x (set_of_angles c)).
  assert (HA' : forall x, A x -> In x (set_of_angles c)) by (intros x [->|X]; [apply (q_zero _ _ _ PR)|exact X]).
  assert (G : Forall (fun x => x = 666 \/ A x) (fst (s', q)) /\ Forall A (snd (s', q))).
  { eapply (repair_all_P c cos_sin distA A); [now left|intros; now right| | | |exact E1].
    - intros x [->|Hx] Nx; [now left|right; auto].
    - intros R. destruct (K10 R) as (_ & B1 & B2 & B3). unfold A; auto.
    - eapply Forall_impl; [|exact I10]. intros; now right. }
  cbn [fst snd] in G. destruct G as [G1 G2].
  unfold repair_membrane. rewrite (q_membrane _ _ _ PR). cbn [negb orb]. unfold calc_lampamA_ply_queue.
  assert (all_known c s' q = true) as ->.
  { assert (Forall (fun x => In x (set_of_angles c)) (known_part c s' ++ q ++ middle_part c s')) as F.
    { rewrite Forall_forall in G1, G2. pose proof (q_size _ _ _ PR) as (_ & Z2 & _). rewrite Forall_forall. intros x Hx. apply in_app_or in Hx. destruct Hx as [Hx|Hx].
      - unfold known_part in Hx. apply filter_In in Hx. destruct Hx as [Hx N]. apply negb_true_iff, Z.eqb_neq in N.
        assert (In x s') as Hs by (destruct (sym c); [rewrite <- (firstn_skipn (length s' / 2) s'); apply in_or_app; now left|exact Hx]).
        destruct (G1 x Hs); [contradiction|auto].
      - apply in_app_or in Hx. destruct Hx as [Hx|Hx]; [auto|]. unfold middle_part in Hx. destruct (sym c) eqn:Y; [|destruct Hx]. cbn [andb] in Hx.
        destruct (C34_repair a c s s' q M (q_abdalla _ _ _ PR) ltac:(intros X; pose proof (q_size _ _ _ PR) as (Z1 & _); rewrite X in Z1; cbn in Z1; lia) Al ltac:(rewrite Y; intros _; apply (Z2 eq_refl)) (q_room _ _ _ PR) E) as (L & _).
        rewrite L, <- Nat.negb_even in Hx. rewrite (proj2 (Z2 eq_refl)) in Hx. destruct Hx. }
    pose proof (known_all c _ (length (known_part c s' ++ q ++ middle_part c s')) F) as X. rewrite firstn_all in X. destruct (sym c); exact X. }
  cbn [bind].
  destruct (contiguity_answers s s' q PR Al E) as (r & inw & outw & E3 & Lr & Fr & Pr & Br & Tr & Or & Gr).
  assert (exists b k, repair_diso_contig_list c (r_n_D1 p) [(s', q)] = Ok (r, b, outw, k)) as (b & k & E3').
  { unfold repair_diso_contig_list. cbn [repair_list_loop]. rewrite E3. cbn [bind]. destruct (inw || outw)%bool eqn:Io; cbn [Nat.eqb].
    - do 2 eexists. reflexivity.
    - apply orb_false_iff in Io. destruct Io as [-> ->]. do 2 eexists. reflexivity. }
  rewrite E3'. cbn [bind].
  assert (Pl : Forall A r).
  { assert (X : Forall (fun x => x = 666 \/ A x) r /\ (sym c = true -> r = rev r)).
    { apply (repair_list_P c (fun x => x = 666 \/ A x)) in E3'; [exact E3'|right; now left|]. intros u v [X|[]]. injection X as <- <-. split; [exact G1|]. eapply Forall_impl; [|exact G2]. intros; now right. }
    destruct X as [X _]. unfold complete in Fr. rewrite Forall_forall in *. intros x Hx. destruct (X x Hx) as [->|Y]; [|exact Y]. specialize (Fr _ Hx). unfold angle_ok in Fr. lia. }
  assert (Sr : Forall (fun x => In x (set_of_angles c)) r) by (eapply Forall_impl; [|exact Pl]; exact HA').
  assert (Nd : forall l, Forall (fun x => In x (set_of_angles c)) l -> ~ In (-1) l).
  { intros l F X. rewrite Forall_forall in F. exact (Hset (F _ X)). }
  set (n := Z.to_nat (last plies 0)).
  assert (Hn : 0 <= last plies 0) by (rewrite <- I9; unfold zlen; lia).
  assert (R : rect n pdl) by (intros x Hx; specialize (I5 x Hx); unfold zlen, n in *; lia).
  assert (Ne : pdl <> []) by (intros ->; cbn in I4; lia). assert (Nes : ss <> []) by (intros ->; cbn in I4'; lia).
  assert (Lc : length s = countb (fun x => negb (x =? -1)) (nth ref pdl [])).
  { change (countb (fun x => negb (x =? -1)) (nth ref pdl [])) with (length (filter Format.kept (nth ref pdl []))). rewrite <- plies_kept. apply Nat2Z.inj. unfold zlen in I7, Ls. congruence. }
  destruct (C24_update_reference_panel n pdl ss (last ss []) r ref R Ne (get_last [] ss Nes) ltac:(unfold zlen, n in *; lia) I9' ltac:(lia) ltac:(lia) (Nd r Sr)) as (sst1 & E4 & L4 & R4 & En4 & Rd4 & Bl4).
  rewrite E4. cbn [bind]. destruct outw; cbn [negb]; [|do 4 eexists; split; [reflexivity|]; split; discriminate].
  set (co := vec_from 0 (nth ref weightsD [])). set (ta := vec_from 8 (nth ref targets [])).
  assert (Ob : forall u, (oop_objective cos_sin co ta u <= 10000000000)%Q) by exact Hobj.
  pose proof (q_size _ _ _ PR) as (Z1 & Z2 & Z3).
  assert (Ev : sym c = true -> Nat.even (length r) = true) by (intros Y; rewrite Lr; apply (Z2 Y)).
  destruct (flexural_answers co ta (r_n_D2 p) (r_n_D3 p) (r_flexural p) r) as [t E5]; auto.
  { intros Co. apply (q_contig _ _ _ PR Co). }
  { apply (q_positions _ _ _ PR). }
  { intros ->. cbn in Lr. lia. }
  rewrite E5. cbn [bind].
  destruct (C36_flexural_partial c cos_sin co ta _ _ _ _ r t Pr (fun u _ => Ob u) E5) as (Pt & Palt & Ro & _).
  assert (St : Forall (fun x => In x (set_of_angles c)) t).
  { rewrite Forall_forall in *. intros x Hx. apply Sr. eapply Permutation_in; [exact Pt|exact Hx]. }
  assert (Ml : convert_sst_to_ss sst1 <> []) by (unfold convert_sst_to_ss; destruct sst1; [destruct pdl; [congruence|discriminate]|discriminate]).
  pose proof (convert_mask n pdl ss (last ss []) r ref sst1 R Ne (get_last [] ss Nes) ltac:(unfold zlen, n in *; lia) I9' (Nd r Sr) E4) as M1.
  assert (Nst : sst1 <> []) by (intros ->; apply mask_len in M1; destruct pdl; [congruence|discriminate]).
  assert (Mk : map Format.kept (last sst1 []) = map Format.kept (last pdl [])).
  { rewrite <- (last_map (map Format.kept) sst1 [] []), <- (last_map (map Format.kept) pdl [] []) by assumption. unfold mask in M1. rewrite M1. reflexivity. }
  assert (Ll : length (last sst1 []) = length (last pdl [])) by (apply (f_equal (@length _)) in Mk; rewrite !map_length in Mk; exact Mk).
  assert (Nl : ~ In (-1) (last sst1 [])) by (apply kept_all; rewrite Mk, Ll; apply kept_all; exact I6).
  assert (Lp : length (last pdl []) = n) by (apply R; destruct (exists_last Ne) as [u [x ->]]; rewrite last_last; apply in_or_app; right; now left).
  assert (Gl : get (convert_sst_to_ss sst1) (-1) = Ok (last sst1 [])).
  { rewrite (get_last [] (convert_sst_to_ss sst1)) by exact Ml. unfold convert_sst_to_ss. rewrite (last_map (filter Format.kept) sst1 [] []) by exact Nst.
    rewrite filter_kept_all by exact Nl. reflexivity. }
  pose proof (Permutation_length Pt) as Lt.
  destruct (C24_update_reference_panel n pdl (convert_sst_to_ss sst1) (last sst1 []) t ref R Ne Gl ltac:(congruence) Nl ltac:(lia) ltac:(rewrite Lt, Lr; exact Lc) (Nd t St)) as (sst2 & E6 & L6 & R6 & En6 & Rd6 & Bl6).
  rewrite E6. cbn [bind].
  destruct (Gr eq_refl) as [Gr1 Gr2].
  destruct (C36_flexural_guidelines a c cos_sin co ta true (r_flexural p) (r_n_D2 p) (r_n_D3 p) r t M (fun Co => proj1 (q_contig _ _ _ PR Co)) Fr Pr) as [Fg1 Fg2].
  { intros Y. rewrite <- Nat.negb_even, (Ev Y). reflexivity. }
  { intros u _. apply Ob. }
  { exact E5. }
  rewrite (gate_answers s r t PR Lr Fr Br Tr Or); auto.
  2: { intros Dt. destruct (q_damtol _ _ _ PR Dt) as (Y & Ru & _). destruct (Ro (or_introl Y)) as [_ X _]. apply X; [lia|]. left. unfold Properties_membrane.n_protected. rewrite Dt, Ru. cbn. lia. }
  cbn [bind]. unfold row. rewrite Rd6. cbn [bind]. unfold differs. destruct (list_eq_dec Z.eq_dec t t) as [_|X]; [|congruence]. cbn [negb guard bind].
  do 4 eexists. split; [reflexivity|]. split; [|auto]. intros _ x Hx.
  rewrite (nth_error_nth _ _ [] Rd6) in Hx. rewrite Forall_forall in St. exact (St x Hx).
Qed.
End Reference.

Lemma thick_out c st lampam dst targets weights pw plies ref ll gl table sst lps ss d s l x :
  repair_thin_to_thick c st lampam dst targets weights pw plies ref ll gl table (sst, lps, ss) = Ok (d, (s, l, x)) ->
  (d = false -> x = ss) /\ (d = true -> x = ss \/ x = convert_sst_to_ss s).
Proof.
  unfold repair_thin_to_thick. destruct (row ss ref); cbn [bind]; [|discriminate]. destruct (row sst ref); cbn [bind]; [|discriminate].
  destruct table as [steps|]; [|intros X; injection X as <- <- <- <-; auto].
  destruct (thick_start _ _ _ _ _ _); cbn [bind]; [|discriminate]. destruct (Redesign.search _ _ _ _ _ _ _ _) as [[nodes|]|]; cbn [bind]; [| |discriminate].
  2: { intros X; injection X as <- <- <- <-; auto. }
  destruct (argmin _); cbn [bind]; [|discriminate]. cbv zeta. destruct (all_rows (l_pdl _)) as [s0|]; cbn [bind]; [|discriminate]. destruct (all_rows _); cbn [bind]; [|discriminate].
  destruct (symmetry_check _ _ _ _); cbn [bind]; [|discriminate]. destruct (lampam_check _ _); cbn [bind]; [|discriminate]. destruct (count_check _ _); cbn [bind]; [|discriminate].
  intros X; injection X as <- <- <- <-. split; [discriminate|auto].
Qed.

(** The repair of a multi-panel design answers, with success or failure: no exception, whatever
    the laminates, the targets and the limits of the search. In particular the checks that the
    repair makes on its own result never fire. *)
Theorem C97_repair_answers : forall a c st D cos_sin lampam distA targets weights weightsA weightsD panel_weightings plies ref p pdl ss,
  mk_cons a = Ok c -> ~ In dropped (set_of_angles c) -> repairable c plies ref pdl ss -> objective_bounded cos_sin targets weightsD ref ->
  (bal c = true -> forall s, balanced s -> ipo_small (nth 2 (lampam s) 0%Q, nth 3 (lampam s) 0%Q)) ->
  zlen (nth ref ss []) = nth ref plies 0 -> plain_repair c p (nth ref ss []) ->
  ready_to_redesign c st D lampam targets weights panel_weightings plies (nth ref ss []) -> shared_parameter c D lampam ->
  length weightsA = length plies -> length weightsD = length plies ->
  exists done ss' sst' pdl' stage,
    repair_mp c st cos_sin lampam distA targets weights weightsA weightsD panel_weightings plies ref p pdl ss = Ok (done, ss', sst', pdl', stage).
Proof.
  intros a c st D cos_sin lampam distA targets weights weightsA weightsD pw plies ref p pdl ss Ha Hset I Hobj Hip Ls PR RR Sh LA LD.
  pose proof (mk_cons_consistent a c Ha) as K. pose proof I as [I1 I2 I3 [I4 I4'] I5 I6 I7 I8 [I9 I9'] I10]. pose proof RR as [A1 A2 A3 A4 A5 [A6 A6'] A7 A8].
  set (n := Z.to_nat (last plies 0)).
  assert (Hn : 0 <= last plies 0) by (rewrite <- I9; unfold zlen; lia).
  assert (R : rect n pdl) by (intros x Hx; specialize (I5 x Hx); unfold zlen, n in *; lia).
  assert (Ne : pdl <> []) by (intros ->; cbn in I4; lia).
  assert (Back : forall l : list (list Z), l <> [] -> zlen (last l []) = last plies 0 -> exists sst, convert_ss_to_sst l pdl = Ok sst).
  { intros l Nl Ll. unfold convert_ss_to_sst. rewrite (get_last [] l Nl). cbn [bind]. rewrite (guide_to_sst_masked n); [eauto|exact R|exact Ne|unfold zlen, n in *; lia]. }
  destruct (reference_answers a c cos_sin lampam distA targets weightsA weightsD plies ref p pdl Ha Hset Hobj Hip ss I Ls PR ltac:(lia) ltac:(lia) ltac:(lia)) as (d1 & lps1 & sst1 & ss1 & E1 & In1 & Lp1).
  unfold repair_mp. rewrite E1. cbn [bind].
  pose proof (reference_panel c cos_sin lampam distA targets weightsA weightsD plies ref p pdl K Hset Hobj _ _ _ _ _ I E1) as Rp.
  destruct d1; cbn [negb].
  2: { cbn [repaired] in Rp. subst ss1. destruct (Back ss) as [sst ->]; [intros ->; cbn in I4'; lia|exact I9|]. cbn [bind]. do 5 eexists. reflexivity. }
  specialize (In1 eq_refl). specialize (Lp1 eq_refl).
  destruct (repaired_design c lampam plies ref pdl ss lps1 sst1 ss1 I Rp) as [Dz Er].
  destruct Rp as (Mk & Bl & Ess & Ft & Pt & Ck & Lr). cbv zeta in *. pose proof (mask_len Mk) as L1.
  assert (Lss1 : length ss1 = length plies) by (rewrite Ess, map_length; lia).
  assert (N1 : ss1 <> []) by (intros X; rewrite X in Lss1; cbn in Lss1; lia).
  assert (Last1 : zlen (last ss1 []) = last plies 0).
  { assert (Nst : sst1 <> []) by (intros X; rewrite X in L1; destruct pdl; [congruence|discriminate]).
    assert (Ml : map Format.kept (last sst1 []) = map Format.kept (last pdl [])).
    { rewrite <- (last_map (map Format.kept) sst1 [] []), <- (last_map (map Format.kept) pdl [] []) by assumption. unfold mask in Mk. rewrite Mk. reflexivity. }
    assert (Ll : length (last sst1 []) = length (last pdl [])) by (apply (f_equal (@length _)) in Ml; rewrite !map_length in Ml; exact Ml).
    assert (Nl : ~ In (-1) (last sst1 [])) by (apply kept_all; rewrite Ml, Ll; apply kept_all; exact I6).
    rewrite Ess. rewrite (last_map plies_of sst1 [] []) by exact Nst. rewrite plies_kept, filter_kept_all by exact Nl. unfold zlen. rewrite Ll.
    destruct (exists_last Ne) as [u [x E]]. apply I5. rewrite E, last_last. apply in_or_app; right; now left. }
  assert (Q1 : row ss1 ref = Ok (nth ref ss1 [])) by (unfold row; rewrite (nth_error_nth' ss1 []) by lia; reflexivity). rewrite Q1. cbn [bind].
  assert (exists thin, thin_table (sym c) plies ref = Ok thin) as [thin T1].
  { destruct (thin_table_spec (sym c) plies ref I1 I2 I3) as (T0 & T1). destruct (Nat.eq_dec ref 0) as [X|X]; [eauto|]. destruct (T1 ltac:(lia)) as (t & E & _). eauto. }
  assert (exists thick, thick_table (sym c) plies ref = Ok thick) as [thick T2].
  { destruct (thick_table_spec (sym c) plies ref I1 I2 I3) as (T0 & T2). destruct (Nat.eq_dec (S ref) (length plies)) as [X|X]; [eauto|]. destruct (T2 ltac:(lia)) as (t & E & _). eauto. }
  rewrite T1. cbn [bind].
  assert (RR1 : ready_to_redesign c st D lampam targets weights pw plies (nth ref ss1 [])) by (constructor; auto).
  destruct (C94_redesign_runs a c st D lampam (dist distA) targets weights pw plies ref (r_local p) (r_global p) thin thick sst1 lps1 ss1 Ha Dz Hset Er RR1 Sh) as (d2 & [[sst2 lps2] ss2] & E3 & Go); auto.
  { rewrite Lp1, map_length. exact Lss1. }
  { rewrite Lp1. intros l Hl. apply in_map_iff in Hl. destruct Hl as [s [<- _]]. apply A5. }
  rewrite E3. cbn [bind].
  destruct (C37_thick_to_thin_partial _ _ _ _ _ _ _ _ _ _ _ _ _ _ _ _ _ _ _ Dz T1 E3) as (F2 & S2).
  destruct d2; cbn [negb].
  2: { specialize (F2 eq_refl). injection F2 as -> -> ->. destruct (Back ss1 N1 Last1) as [sst ->]. cbn [bind]. do 5 eexists. reflexivity. }
  destruct (S2 eq_refl) as ((_ & _ & Ls2) & Kp & _). clear S2 F2. destruct (Kp ref (le_n _)) as (_ & _ & Kr).
  assert (N2 : ss2 <> []) by (intros X; rewrite X in Ls2; cbn in Ls2; lia).
  assert (Last2 : zlen (last ss2 []) = last plies 0).
  { assert (X : last ss2 [] = last ss1 []).
    { rewrite (last_nth_gen ss2 [] N2), (last_nth_gen ss1 [] N1). destruct (Kp (length plies - 1)%nat ltac:(lia)) as (_ & _ & X). replace (length ss2 - 1)%nat with (length plies - 1)%nat by lia. replace (length ss1 - 1)%nat with (length plies - 1)%nat by lia. exact X. }
    rewrite X. exact Last1. }
  assert (Q2 : row ss2 ref = Ok (nth ref ss1 [])) by (unfold row; rewrite (nth_error_nth' ss2 []) by lia; rewrite Kr; reflexivity). rewrite Q2. cbn [bind].
  unfold differs at 1. destruct (list_eq_dec Z.eq_dec _ _) as [_|X]; [|congruence]. cbn [negb guard bind]. rewrite T2. cbn [bind].
  destruct (Go eq_refl) as (d3 & [[sst3 lps3] ss3] & E4). rewrite E4. cbn [bind].
  destruct (thick_out _ _ _ _ _ _ _ _ _ _ _ _ _ _ _ _ _ _ _ E4) as [F3 S3].
  destruct d3; cbn [negb].
  2: { specialize (F3 eq_refl). subst ss3. destruct (Back ss2 N2 Last2) as [sst ->]. cbn [bind]. do 5 eexists. reflexivity. }
  destruct (C37_redesign_partial c st lampam (dist distA) targets weights pw plies ref (r_local p) (r_global p) thin thick sst1 lps1 ss1 sst2 lps2 ss2 sst3 lps3 ss3 Dz Hset Er T1 T2 E3 E4) as (_ & L3 & _).
  assert (Ls3 : length ss3 = length plies) by (destruct (S3 eq_refl) as [->| ->]; [lia|unfold convert_sst_to_ss; rewrite map_length; exact L3]).
  pose proof (C57_own_checks_hold a c st cos_sin lampam distA targets weights weightsA weightsD pw plies ref p pdl ss thin thick lps1 sst1 ss1 lps2 sst2 ss2 lps3 sst3 ss3 Ha Hset I Hobj E1 T1 T2 E3 E4 Ls3) as Fin.
  unfold repair_mp in Fin. rewrite E1 in Fin. cbn [bind negb] in Fin. rewrite Q1 in Fin. cbn [bind] in Fin. rewrite T1 in Fin. cbn [bind] in Fin. rewrite E3 in Fin. cbn [bind negb] in Fin.
  rewrite Q2 in Fin. cbn [bind] in Fin. unfold differs at 1 in Fin. destruct (list_eq_dec Z.eq_dec (nth ref ss1 []) (nth ref ss1 [])) as [_|X]; [|congruence]. cbn [negb guard bind] in Fin.
  rewrite T2 in Fin. cbn [bind] in Fin. rewrite E4 in Fin. cbn [bind negb] in Fin. rewrite Fin. do 5 eexists. reflexivity.
Qed.
Print Assumptions C97_repair_answers.

(* ---------------- a concrete case ---------------- *)
Lemma shear_sum s : (sumQ (map (fun a => cos_sin_4 a 2%nat) s) == inject_Z (Z.of_nat (count_occ Z.eq_dec s 45%Z) - Z.of_nat (count_occ Z.eq_dec s (-45)%Z)))%Q.
Proof.
  induction s as [|x s IH]; [reflexivity|]. cbn [map sumQ count_occ fold_right]. unfold sumQ in *. cbn [fold_right]. rewrite IH. unfold cos_sin_4.
  destruct (Z.eq_dec x 45) as [->|N]; [|destruct (Z.eq_dec x (-45)) as [->|N']].
  - destruct (Z.eq_dec 45 (-45)); [discriminate|]. rewrite Z.eqb_refl, Nat2Z.inj_succ. unfold Z.sub, Z.succ. rewrite !inject_Z_plus, !inject_Z_opp. change (inject_Z 1) with 1%Q. ring.
  - destruct (Z.eq_dec (-45) 45); [discriminate|]. cbn [Z.eqb Pos.eqb]. rewrite Nat2Z.inj_succ. unfold Z.sub, Z.succ. rewrite !inject_Z_plus, !inject_Z_opp, !inject_Z_plus. change (inject_Z 1) with 1%Q. ring.
  - apply Z.eqb_neq in N, N'. rewrite N, N'. ring.
Qed.
Lemma lp_4_balanced s : balanced s -> ipo_small (nth 2 (lp_4 s) 0%Q, nth 3 (lp_4 s) 0%Q).
Proof.
  intros B. specialize (B 45 ltac:(lia) ltac:(cbn; lia)). cbn [Z.opp] in B. unfold lp_4. cbn [seq map nth]. unfold ipo_small. cbn [fst snd].
  assert (H3 : (Qred (in_plane cos_sin_4 s 3%nat) == 0)%Q).
  { rewrite Qred_correct. unfold in_plane, Qdiv. assert (sumQ (map (fun a => cos_sin_4 a 3%nat) s) == 0)%Q as ->; [|ring].
    clear. induction s as [|y s IH]; cbn; [reflexivity|]. rewrite IH. reflexivity. }
  assert (H2 : (Qred (in_plane cos_sin_4 s 2%nat) == 0)%Q).
  { rewrite Qred_correct. unfold in_plane, Qdiv. rewrite shear_sum, B, Z.sub_diag. ring. }
  rewrite H2, H3. split; vm_compute; discriminate.
Qed.

Definition wide : list Z := let h := [45; 0; 0; 90; 0; 0; 0; -45; 0; 45; 0; 90] in h ++ rev h.
Definition pdl_97 : list (list Z) :=
  [let h := [1; 1; 1; -1; 1; 1; 1; -1; 1; 1; -1; 1] in h ++ rev h; let h := [1; 1; 1; -1; 1; 1; 1; 1; 1; 1; -1; 1] in h ++ rev h; repeat 1 24].
Definition ss_97 : list (list Z) := [firstn 18 poor; poor; wide].
(** all the hypotheses together: three panels of 18, 20 and 24 plies, the reference panel in the
    middle, a laminate that must be repaired for balance, disorientation and contiguity *)
Example C97_example : exists c, mk_cons (args_ss false) = Ok c /\ ~ In dropped (set_of_angles c) /\ repairable c [18; 20; 24] 1 pdl_97 ss_97 /\
  objective_bounded cos_sin_4 (all [0; 0; 0; 0]%Q [18; 20; 24]) (all [1; 1; 1; 1]%Q [18; 20; 24]) 1 /\
  (bal c = true -> forall s, balanced s -> ipo_small (nth 2 (lp_4 s) 0%Q, nth 3 (lp_4 s) 0%Q)) /\
  zlen (nth 1 ss_97 []) = nth 1 [18; 20; 24] 0 /\ plain_repair c params_ss_on (nth 1 ss_97 []) /\
  ready_to_redesign c (chain_strip 3) 4 lp_4 (all [0; 0; 0; 0]%Q [18; 20; 24]) (all [1; 1; 1; 1]%Q [18; 20; 24]) (all 1%Q [18; 20; 24]) [18; 20; 24] (nth 1 ss_97 []) /\
  shared_parameter c 4 lp_4 /\ ~ balanced (nth 1 ss_97 []).
Proof.
  destruct (mk_cons (args_ss false)) as [c|] eqn:E; [|vm_compute in E; discriminate]. exists c. vm_compute in E. injection E as <-.
  split; [reflexivity|]. split; [cbn; intuition discriminate|]. split.
  { constructor; try reflexivity; try (cbn; lia).
    - repeat constructor.
    - intros _ [|[|[|i]]] Hi; try reflexivity. cbn in Hi. lia.
    - intros r [<-|[<-|[<-|[]]]]; reflexivity.
    - unfold dropped. cbn. lia.
    - split; [reflexivity|]. unfold dropped. cbn. lia.
    - cbn [nth ss_97]. apply Forall_forall. intros x Hx. vm_compute in Hx. cbn. intuition. }
  split; [apply bounded_here; cbn; lia|]. split; [intros _; apply lp_4_balanced|]. split; [reflexivity|]. split.
  { constructor; try reflexivity.
    - cbn. tauto.
    - intros _. vm_compute. discriminate.
    - intros _. cbn. lia.
    - intros _. cbn. lia.
    - vm_compute. discriminate.
    - split; [vm_compute; discriminate|discriminate].
    - discriminate.
    - split; [cbn; lia|]. split; [intros _; split; reflexivity|discriminate]. }
  split.
  { constructor; cbn.
    - intros _. lia.
    - intuition.
    - intros [|[|[|i]]] Hi; lia.
    - intros b [<-|[<-|[]]]; (split; [cbn; lia|]; split; [cbn; lia|]; eexists; reflexivity).
    - reflexivity.
    - split; [reflexivity|]. intros t [<-|[<-|[<-|[]]]]; reflexivity.
    - split; [reflexivity|]. intros t [<-|[<-|[<-|[]]]]; reflexivity.
    - lia. }
  split; [apply lp_4_shares; reflexivity|]. intros B. specialize (B 45 ltac:(lia) ltac:(cbn; lia)). vm_compute in B. discriminate B.
Qed.

(** outside these limits the repair may stop with an exception: with the in-plane refinement on *)
Definition refined (b : bool) (p : rparams) : rparams :=
  {| r_membrane := b; r_flexural := r_flexural p; r_p_A := r_p_A p; r_n_D1 := r_n_D1 p; r_n_D2 := r_n_D2 p; r_n_D3 := r_n_D3 p; r_local := r_local p; r_global := r_global p; r_fuel := r_fuel p |}.
Definition run_97 (c : cons) (p : rparams) :=
  repair_mp c (chain_strip 3) cos_sin_4 lp_4 (fun _ => 0%Q) (all [0; 0; 0; 0]%Q [18; 20; 24]) (all [1; 1; 1; 1]%Q [18; 20; 24]) (all [1; 1; 1; 1]%Q [18; 20; 24]) (all [1; 1; 1; 1]%Q [18; 20; 24])
    (all 1%Q [18; 20; 24]) [18; 20; 24] 1 p pdl_97 ss_97.
Theorem C97_in_plane_refinement_refuted : ~ (forall a c p,
  mk_cons a = Ok c -> repairable c [18; 20; 24] 1 pdl_97 ss_97 -> plain_repair c (refined false p) (nth 1 ss_97 []) ->
  ready_to_redesign c (chain_strip 3) 4 lp_4 (all [0; 0; 0; 0]%Q [18; 20; 24]) (all [1; 1; 1; 1]%Q [18; 20; 24]) (all 1%Q [18; 20; 24]) [18; 20; 24] (nth 1 ss_97 []) ->
  exists done ss' sst' pdl' stage, run_97 c p = Ok (done, ss', sst', pdl', stage)).
Proof.
  intros H. destruct C97_example as (c & E & _ & I & _ & _ & _ & P & R & _). destruct (H _ c (refined true params_ss_on) E I P R) as (d & s & t & u & k & X).
  vm_compute in E. injection E as <-. vm_compute in X. discriminate X.
Qed.
(** and with a damage tolerance rule that the given laminate does not satisfy *)
Theorem C97_damage_tolerance_refuted : ~ (forall a c p,
  mk_cons a = Ok c -> repairable c [18; 20; 24] 1 pdl_97 ss_97 -> (rule_10_percent c && rule_10_Abdalla c)%bool = false -> r_membrane p = false ->
  ready_to_redesign c (chain_strip 3) 4 lp_4 (all [0; 0; 0; 0]%Q [18; 20; 24]) (all [1; 1; 1; 1]%Q [18; 20; 24]) (all 1%Q [18; 20; 24]) [18; 20; 24] (nth 1 ss_97 []) ->
  exists done ss' sst' pdl' stage, run_97 c p = Ok (done, ss', sst', pdl', stage)).
Proof.
  intros H. destruct C97_example as (c0 & E0 & _ & [J1 J2 J3 J4 J5 J6 J7 J8 J9 J10] & _ & _ & _ & _ & [K1 K2 K3 K4 K5 K6 K7 K8] & _).
  destruct (mk_cons (args_ss true)) as [c|] eqn:E; [|vm_compute in E; discriminate E].
  assert (S1 : set_of_angles c = set_of_angles c0) by (vm_compute in E, E0; injection E as <-; injection E0 as <-; reflexivity).
  assert (S2 : sym c = sym c0 /\ contig c = contig c0 /\ n_contig c = n_contig c0) by (vm_compute in E, E0; injection E as <-; injection E0 as <-; repeat split).
  destruct S2 as (S2 & S3 & S4).
  destruct (H _ c params_ss_on E) as (d & s & t & u & k & X).
  - constructor; try assumption; rewrite ?S1, ?S2; assumption.
  - vm_compute in E. injection E as <-. reflexivity.
  - reflexivity.
  - constructor; try assumption; rewrite ?S1, ?S3, ?S4; assumption.
  - vm_compute in E. injection E as <-. vm_compute in X. discriminate X.
Qed.
Print Assumptions C97_in_plane_refinement_refuted.
Print Assumptions C97_damage_tolerance_refuted.
