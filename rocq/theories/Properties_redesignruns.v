(* Properties_redesignruns.v - C94: the re-design of the ply drops never stops with an exception *)
From Verif Require Import Base Uniq Constraints Guidelines SpecGuidelines GuidelinesProofs ConstraintsProofs GateProofs Divers Spacing Strip StripProofs Format Search Objectives SpecRedesign Redesign RedesignProofs RedesignThick Properties_redesign RedesignRunsProofs.
Local Open Scope Z_scope.

(** what the two stages are given besides the design: allowed plies in the reference panel, no
    panel of fewer than three plies, a weight for every boundary, and one target, weighting and
    panel weighting per panel, with as many entries as there are lamination parameters *)
Record ready_to_redesign (c : cons) (st : strip) (D : nat) (lampam : list Z -> list Q) (targets weights : list (list Q)) (panel_weightings : list Q) (plies : list Z) (ss_ref : list Z) : Prop := {
  y_contig : contig c = true -> (2 <= n_contig c <= 6)%nat;
  y_angles : forall a, In a ss_ref -> In a (set_of_angles c);
  y_three : forall i, (i < length plies)%nat -> 3 <= nth i plies 0;
  y_boundaries : forall b, In b (s_boundaries st) -> (fst b < length plies)%nat /\ (snd b < length plies)%nat /\ exists w, lookup (s_weights st) b = Ok w;
  y_lampam : forall s, length (lampam s) = D;
  y_targets : length targets = length plies /\ forall t, In t targets -> length t = D;
  y_weights : length weights = length plies /\ forall t, In t weights -> length t = D;
  y_panels : (length panel_weightings <= length plies)%nat }.
(** one lamination parameter is the same for all the laminates of the allowed plies (mirrored
    ones when symmetry is active): a coupling parameter of symmetric laminates, or the mean of
    sin 4t when all angles are multiples of 45 *)
Definition shared_parameter (c : cons) (D : nat) (lampam : list Z -> list Q) : Prop :=
  exists z v, (z < D)%nat /\ forall s, (sym c = true -> palindrome s) -> (forall a, In a s -> In a (set_of_angles c)) -> (nth z (lampam s) 0 == v)%Q.

Lemma ready_fits c st D lampam targets weights pw plies ssr : ready_to_redesign c st D lampam targets weights pw plies ssr -> fits D (length plies) lampam targets weights pw.
Proof. intros [A1 A2 A3 A4 A5 A6 A7 A8]. constructor; assumption. Qed.
Lemma shares c D lampam : shared_parameter c D lampam -> exists G : list Q -> Prop,
  (forall s, (sym c = true -> palindrome s) -> (forall a, In a s -> In a (set_of_angles c)) -> G (lampam s)) /\
  (forall lp lp', G lp -> G lp' -> length lp = D -> length lp' = D -> exists i, (i < D)%nat /\ (nth i lp 0 == nth i lp' 0)%Q).
Proof.
  intros (z & v & Lz & H). exists (fun lp => nth z lp 0 == v)%Q. split; [exact H|]. intros lp lp' E E' _ _. exists z. split; [exact Lz|]. rewrite E, E'. reflexivity.
Qed.

(** first stage, panels thinner than the reference panel: an answer, whatever the limits, the
    targets, the distance of Abdalla and the values given with the panels *)
Theorem C94_thick_to_thin : forall a c st D lampam dist targets weights panel_weightings plies ref local_limit global_limit table sst lps ss,
  mk_cons a = Ok c -> strip_design (sym c) plies ref sst -> nth ref ss [] = plies_of (nth ref sst []) ->
  ready_to_redesign c st D lampam targets weights panel_weightings plies (nth ref ss []) -> shared_parameter c D lampam ->
  length lps = length plies -> length ss = length plies -> thin_table (sym c) plies ref = Ok table ->
  exists done t, repair_thick_to_thin c st lampam dist targets weights panel_weightings plies ref local_limit global_limit table (sst, lps, ss) = Ok (done, t).
Proof.
  intros a c st D lampam dist targets weights pw plies ref ll gl table sst lps ss Hc [D1 D2 D3 D4 D5 D6 D7] Hss R Sh L1 L2 HT.
  destruct (shares _ _ _ Sh) as (G & HG & HGE). pose proof (ready_fits _ _ _ _ _ _ _ _ _ R) as F. destruct R as [A1 A2 A3 A4 A5 A6 A7 A8]. rewrite Hss in A2.
  destruct (thin_total c st lampam dist targets weights pw plies ref (nth ref sst []) D D1 D2 D3) with (G := G) (local_limit := ll) (global_limit := gl) (table := table) (sst := sst) (lps := lps) (ss := ss) as (done & s1 & s2 & s3 & E & _); auto.
  - unfold n_max. unfold zlen in D5. lia.
  - eapply mk_cons_consistent, Hc.
  - apply A3. lia.
  - apply nth_error_nth'. lia.
  - rewrite <- Hss. apply nth_error_nth'. lia.
  - eauto.
Qed.
Print Assumptions C94_thick_to_thin.

(** second stage, panels thicker than the reference panel, the others being blended *)
Theorem C94_thin_to_thick : forall a c st D lampam dist targets weights panel_weightings plies ref local_limit global_limit table sst lps ss,
  mk_cons a = Ok c -> strip_design (sym c) plies ref sst -> ~ In dropped (set_of_angles c) -> nth ref ss [] = plies_of (nth ref sst []) ->
  (forall j, (j < ref)%nat -> drops_from (nth j sst []) (nth (S j) sst [])) ->
  (sym c = true -> forall j, (j < ref)%nat -> palindrome (nth j sst [])) ->
  (forall j, (j < ref)%nat -> zlen (plies_of (nth j sst [])) = nth j plies 0) ->
  ready_to_redesign c st D lampam targets weights panel_weightings plies (nth ref ss []) -> shared_parameter c D lampam ->
  length lps = length plies -> (forall l, In l lps -> length l = D) -> length ss = length plies -> thick_table (sym c) plies ref = Ok table ->
  exists done t, repair_thin_to_thick c st lampam dist targets weights panel_weightings plies ref local_limit global_limit table (sst, lps, ss) = Ok (done, t).
Proof.
  intros a c st D lampam dist targets weights pw plies ref ll gl table sst lps ss Hc [D1 D2 D3 D4 D5 D6 D7] Hset Hss Hbl Hmir Hcn R Sh L1 Ld L2 HT.
  destruct (shares _ _ _ Sh) as (G & HG & HGE). pose proof (ready_fits _ _ _ _ _ _ _ _ _ R) as F. destruct R as [A1 A2 A3 A4 A5 A6 A7 A8]. rewrite Hss in A2.
  assert (Hmir' : sym c = true -> forall j, (j <= ref)%nat -> palindrome (nth j sst [])).
  { intros Y j Hj. destruct (Nat.eq_dec j ref) as [->|E]; [apply D7, Y|apply Hmir; [exact Y|lia]]. }
  destruct (base_facts c plies ref sst D2 D4 Hbl Hmir' D6) as (B1 & B2 & B3 & B4 & B5).
  unfold repair_thin_to_thick.
  assert (row ss ref = Ok (plies_of (nth ref sst []))) as ->.
  { unfold row. rewrite <- Hss. rewrite (nth_error_nth' ss [] (n := ref)) by lia. reflexivity. }
  assert (row sst ref = Ok (nth ref sst [])) as ->.
  { unfold row. rewrite (nth_error_nth' sst [] (n := ref)) by lia. reflexivity. }
  cbn [bind]. destruct table as [steps|]; [|eauto].
  destruct (thick_tail_total c st lampam dist targets weights pw plies ref (clean (nth ref sst []) sst) D Hset D1 D2 D3) with (G := G) (local_limit := ll) (global_limit := gl) (steps := steps) (lps := lps) as (m & o & Em & Eo & Hn); auto.
  - unfold clean. rewrite map_length. lia.
  - eapply mk_cons_consistent, Hc.
  - rewrite B2. exact A2.
  - intros j Hj. rewrite (B1 j Hj). destruct (Nat.eq_dec j ref) as [->|E]; [exact D6|apply Hcn; lia].
  - apply A3. lia.
  - rewrite B2 in Em. rewrite Em. cbn [bind]. rewrite Eo. cbn [bind]. destruct o as [nodes|]; [|eauto].
    destruct (Hn nodes eq_refl) as (k & s1 & l1 & E1 & E2 & E3 & E4 & E5 & E6). rewrite E1. cbn [bind]. rewrite E2. cbn [bind]. rewrite E3. cbn [bind]. cbv zeta. rewrite E4. cbn [bind]. rewrite E5. cbn [bind]. rewrite E6. cbn [bind]. eauto.
Qed.
Print Assumptions C94_thin_to_thick.

(** both stages *)
Theorem C94_redesign_runs : forall a c st D lampam dist targets weights panel_weightings plies ref local_limit global_limit thin thick sst lps ss,
  mk_cons a = Ok c -> strip_design (sym c) plies ref sst -> ~ In dropped (set_of_angles c) -> nth ref ss [] = plies_of (nth ref sst []) ->
  ready_to_redesign c st D lampam targets weights panel_weightings plies (nth ref ss []) -> shared_parameter c D lampam ->
  length lps = length plies -> (forall l, In l lps -> length l = D) -> length ss = length plies ->
  thin_table (sym c) plies ref = Ok thin -> thick_table (sym c) plies ref = Ok thick ->
  exists done t, repair_thick_to_thin c st lampam dist targets weights panel_weightings plies ref local_limit global_limit thin (sst, lps, ss) = Ok (done, t) /\
    (done = true -> exists done' t', repair_thin_to_thick c st lampam dist targets weights panel_weightings plies ref local_limit global_limit thick t = Ok (done', t')).
Proof.
  intros a c st D lampam dist targets weights pw plies ref ll gl thin thick sst lps ss Hc Dz Hset Hss R Sh L1 Ld L2 HT1 HT2.
  pose proof Dz as [D1 D2 D3 D4 D5 D6 D7].
  destruct (shares _ _ _ Sh) as (G & HG & HGE). pose proof (ready_fits _ _ _ _ _ _ _ _ _ R) as F. pose proof R as [A1 A2 A3 A4 A5 A6 A7 A8]. rewrite Hss in A2.
  destruct (thin_total c st lampam dist targets weights pw plies ref (nth ref sst []) D D1 D2 D3) with (G := G) (local_limit := ll) (global_limit := gl) (table := thin) (sst := sst) (lps := lps) (ss := ss) as (done & s1 & s2 & s3 & E & Hd); auto.
  - unfold n_max. unfold zlen in D5. lia.
  - eapply mk_cons_consistent, Hc.
  - apply A3. lia.
  - apply nth_error_nth'. lia.
  - rewrite <- Hss. apply nth_error_nth'. lia.
  - exists done, (s1, s2, s3). split; [exact E|]. intros ->.
    destruct (C37_thick_to_thin_partial _ _ _ _ _ _ _ _ _ _ _ _ _ _ _ _ _ _ _ Dz HT1 E) as (_ & A). destruct (A eq_refl) as ((K1 & K2 & K3) & K & T). clear A.
    destruct (K ref (le_n _)) as (K4 & _ & K5).
    assert (Dz' : strip_design (sym c) plies ref s1).
    { constructor; try assumption; try (rewrite K4; assumption). lia. }
    apply (C94_thin_to_thick a c st D) ; auto; try lia.
    + rewrite K5, K4. exact Hss.
    + intros j Hj. apply (T j Hj).
    + intros Y j Hj. destruct (T j Hj) as ((_ & _ & _ & P & _) & _). apply P, Y.
    + intros j Hj. destruct (T j Hj) as ((_ & _ & P & _) & _). exact P.
    + rewrite K5. exact R.
Qed.
Print Assumptions C94_redesign_runs.

(** the hypotheses are met: the strip of three panels of [C37_example] *)
Lemma lp_4_shares c D : D = 4%nat -> shared_parameter c D lp_4.
Proof.
  intros ->. exists 3%nat, 0%Q. split; [lia|]. intros s _ _. unfold lp_4. cbn [seq map nth]. rewrite Qred_correct. unfold Properties_membrane.in_plane, Qdiv.
  assert (sumQ (map (fun a => Properties_membrane.cos_sin_4 a 3) s) == 0)%Q as ->; [|ring].
  induction s as [|x s IH]; cbn; [reflexivity|rewrite IH; reflexivity].
Qed.
Example C94_example : exists c thin thick, mk_cons (args_re true true true) = Ok c /\ strip_design (sym c) [8; 12; 16] 1 three_panels /\ ~ In dropped (set_of_angles c) /\
  ready_to_redesign c (chain_strip 3) 4 lp_4 (all [0; 0; 0; 0]%Q [8; 12; 16]) (all [1; 1; 1; 1]%Q [8; 12; 16]) (all 1%Q [8; 12; 16]) [8; 12; 16] (plies_of (nth 1 three_panels [])) /\
  shared_parameter c 4 lp_4 /\ thin_table (sym c) [8; 12; 16] 1 = Ok thin /\ thick_table (sym c) [8; 12; 16] 1 = Ok thick.
Proof.
  destruct (mk_cons (args_re true true true)) as [c|] eqn:E; [|vm_compute in E; discriminate]. exists c.
  assert (Y : sym c = true) by (vm_compute in E; injection E as <-; reflexivity).
  assert (S0 : ~ In dropped (set_of_angles c)) by (vm_compute in E; injection E as <-; cbn; intuition discriminate).
  rewrite Y. do 2 eexists. split; [reflexivity|]. split; [exact three_panels_design|]. split; [exact S0|]. split.
  - vm_compute in E. injection E as <-. constructor; cbn.
    + intros _. lia.
    + intuition.
    + intros [|[|[|i]]] Hi; lia.
    + intros b [<-|[<-|[]]]; (split; [cbn; lia|]; split; [cbn; lia|]; eexists; reflexivity).
    + reflexivity.
    + split; [reflexivity|]. intros t [<-|[<-|[<-|[]]]]; reflexivity.
    + split; [reflexivity|]. intros t [<-|[<-|[<-|[]]]]; reflexivity.
    + lia.
  - split; [apply lp_4_shares; reflexivity|]. split; vm_compute; reflexivity.
Qed.

(** without a shared parameter the first stage may stop with an exception: its own check of the
    lamination parameters fires, since they are those of other candidates (C54). An asymmetric
    laminate with plies at 20, 50 and 80 degrees, lamination parameters to three digits *)
Definition args_20 : cargs := {|
  a_sym := false; a_bal := false; a_oopo := false; a_dam_tol := false;
  a_rule_10_percent := false; a_rule_10_Abdalla := false; a_percent_Abdalla := 0;
  a_combine_45_135 := true; a_calc_combine_45_135 := true;
  a_percent_0 := 10; a_percent_45 := 0; a_percent_90 := 10; a_percent_135 := 0;
  a_percent_45_135 := 10;
  a_diso := false; a_contig := false; a_n_contig := 5; a_delta_angle := 45;
  a_dam_tol_rule := 1; a_set_of_angles := [0; 20; -20; 50; -50; 80; -80]; a_min_drop := 2;
  a_pdl_spacing := false; a_covering := false; a_n_covering := 0 |}.
Definition milli (a : Z) (i : nat) : Z :=
  nth i (if a =? 0 then [1000; 1000; 0; 0] else if a =? 20 then [766; 174; 643; 985] else if a =? 50 then [-174; -940; 985; -342] else [-940; 766; 342; -643]) 0.
(** A, B and D parameters of a laminate, times a thousand *)
Definition lp_12 (ss : list Z) : list Q :=
  let n := length ss in
  let z (i : nat) : Z := 2 * Z.of_nat i - Z.of_nat n in
  let part (p : nat) (den : Z) := map (fun j => Qred (sumQ (map (fun i => inject_Z (milli (nth i ss 0) j * (z (S i) ^ Z.of_nat p - z i ^ Z.of_nat p))) (seq 0 n)) / inject_Z den)) (seq 0 4) in
  part 1%nat (2 * Z.of_nat n) ++ part 2%nat (2 * Z.of_nat n ^ 2) ++ part 3%nat (2 * Z.of_nat n ^ 3).
Lemma lp_12_length s : length (lp_12 s) = 12%nat.
Proof. unfold lp_12. cbv zeta. rewrite !app_length, !map_length. reflexivity. Qed.
Theorem C94_check_fires_refuted : ~ (forall a c st D lampam dist targets weights panel_weightings plies ref local_limit global_limit table sst lps ss,
  mk_cons a = Ok c -> strip_design (sym c) plies ref sst -> ss = map plies_of sst -> lps = map lampam ss ->
  ready_to_redesign c st D lampam targets weights panel_weightings plies (nth ref ss []) -> thin_table (sym c) plies ref = Ok table ->
  exists done t, repair_thick_to_thin c st lampam dist targets weights panel_weightings plies ref local_limit global_limit table (sst, lps, ss) = Ok (done, t)).
Proof.
  intros H. destruct (mk_cons args_20) as [c|] eqn:E; [|vm_compute in E; discriminate].
  destruct (thin_table false [3; 4] 1) as [table|] eqn:ET; [|vm_compute in ET; discriminate].
  set (sst := [[0; 20; 50; -1]; [0; 20; 50; 80]]).
  specialize (H args_20 c (chain_strip 2) 12%nat lp_12 no_dist (all (lp_12 [20; 50; 80]) [3; 4]) (all (repeat 1%Q 12) [3; 4]) (all 1%Q [3; 4]) [3; 4] 1%nat 4%nat 4%nat table sst
    (map lp_12 (map plies_of sst)) (map plies_of sst) E).
  assert (D : strip_design false [3; 4] 1 sst).
  { clear -sst. constructor; try reflexivity; try (cbn; lia); try discriminate. repeat constructor. }
  vm_compute in E. injection E as <-. vm_compute in ET. injection ET as <-.
  destruct (H D eq_refl eq_refl) as (done & t & X); [|reflexivity|vm_compute in X; discriminate].
  constructor.
  - cbn. discriminate.
  - cbn. intuition.
  - cbn [length]. intros [|[|i]] Hi; cbn; lia.
  - cbn. intros b [<-|[]]. split; [cbn; lia|]. split; [cbn; lia|]. eexists. reflexivity.
  - apply lp_12_length.
  - split; [reflexivity|]. intros t [<-|[<-|[]]]; reflexivity.
  - split; [reflexivity|]. intros t [<-|[<-|[]]]; reflexivity.
  - cbn. lia.
Qed.
Print Assumptions C94_check_fires_refuted.
