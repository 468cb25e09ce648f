(* Properties_redesign.v - C37, C54: re-design of the ply drops around the reference panel *)
From Verif Require Import Base Uniq Constraints Guidelines SpecGuidelines GuidelinesProofs GateProofs Divers Spacing Strip StripProofs Format Search Objectives SpecRedesign Redesign RedesignProofs RedesignThick Membrane Properties_repairdiso Properties_membrane.
Local Open Scope Z_scope.

(** a blending strip, thinnest panel first, with the table of a design: the reference panel
    has its required number of plies *)
Record strip_design (symmetric : bool) (plies : list Z) (ref : nat) (sst : list (list Z)) : Prop := {
  d_increasing : StronglySorted Z.lt plies;
  d_ref : (ref < length plies)%nat;
  d_parity : symmetric = true -> forall i, (i < length plies)%nat -> Z.even (nth i plies 0) = Z.even (nth ref plies 0);
  d_rows : length sst = length plies;
  d_width : zlen (nth ref sst []) = last plies 0;
  d_count : zlen (plies_of (nth ref sst [])) = nth ref plies 0;
  d_mirror : symmetric = true -> palindrome (nth ref sst []) }.

(** the guidelines that both modules enforce: no block of more than n_contig plies (among those
    covered by the guideline), the 10% rule of Abdalla *)
Definition enforced (c : cons) (lampam : list Z -> list Q) (dist : list Q -> Q) (ss : list Z) : Prop :=
  (contig c = true -> (2 <= n_contig c <= 6)%nat -> forall m, covered_plies c ss m -> contig_stack (n_contig c) m) /\
  (rule_10_percent c = true -> rule_10_Abdalla c = true -> (dist (lampam ss) == 0)%Q).
(** the balance of the reference panel is kept, up to one ply (pair) *)
Definition nearly_as_balanced (c : cons) (ss ss_ref : list Z) : Prop :=
  bal c = true -> forall a, off_axis a -> Z.abs (excess_at a ss - excess_at a ss_ref) <= (if sym c then 2 else 1).

Lemma breaks_contig_spec c ss : breaks_contig c ss = Ok false ->
  contig c = true -> (2 <= n_contig c <= 6)%nat -> forall m, covered_plies c ss m -> contig_stack (n_contig c) m.
Proof.
  intros H C R m Hm. unfold breaks_contig in H. rewrite C in H. destruct (contig_penalty_covered ss c m R Hm) as (n & En & Cn). rewrite En in H. cbn [bind] in H.
  injection H as H. apply negb_false_iff, Z.eqb_eq in H. subst n. apply counts_zero in Cn || (rewrite counts_zero in Cn). unfold contig_stack. rewrite has_block_at. intros (i & Hi). exact (Cn i Hi).
Qed.
Lemma breaks_diso_spec c ss : breaks_diso c ss = Ok false ->
  diso c = true -> Forall angle_ok ss -> forall m, covered_plies c ss m -> m <> [] -> diso_stack (delta_angle c) m.
Proof.
  intros H C R m Hm Ne. unfold breaks_diso in H. rewrite C in H. destruct (diso_penalty_covered ss c m R Hm Ne) as (n & En & Cn). rewrite En in H. cbn [bind] in H.
  injection H as H. apply negb_false_iff, Z.eqb_eq in H. subst n. rewrite counts_zero in Cn. intros a b (l1 & l2 & E).
  assert (Fm : Forall angle_ok m).
  { destruct Hm as [(_ & _ & [(x & y & E')|(_ & E')])|(_ & E')].
    - rewrite E' in R. inversion R as [|? ? _ R']. apply Forall_app in R'. apply R'.
    - rewrite E'. constructor.
    - now rewrite E'. }
  assert (angle_ok a /\ angle_ok b) as (Aa & Ab).
  { rewrite Forall_forall in Fm. split; apply Fm; rewrite E; apply in_app_iff; right; cbn; auto. }
  destruct (is_diso a b (delta_angle c)) eqn:D; [now apply is_diso_spec in D|].
  exfalso. apply (Cn (length l1)). exists a, b, l1, l2. split; [exact E|]. split; [reflexivity|]. rewrite <- is_diso_spec by assumption. rewrite D. discriminate.
Qed.

(* ------------------------------------------------------------------ *)
(** ** panels thinner than the reference panel *)
Definition thinner_panel (c : cons) (lampam : list Z -> list Q) (dist : list Q -> Q) (plies : list Z) (pdl_ref : list Z) (sst' : list (list Z)) (j : nat) : Prop :=
  let r := nth j sst' [] in
  drops_from r (nth (S j) sst' []) /\ zlen r = last plies 0 /\ zlen (plies_of r) = nth j plies 0 /\ (sym c = true -> palindrome r) /\
  (covering c = true -> forall i, (i < n_covering c \/ length r - n_covering c <= i < length r)%nat -> nth i r 0 = nth i pdl_ref 0) /\
  enforced c lampam dist (plies_of r) /\ nearly_as_balanced c (plies_of r) (plies_of pdl_ref).

Theorem C37_thick_to_thin_partial : forall c st lampam dist targets weights panel_weightings plies ref local_limit global_limit table sst lps ss done sst' lps' ss',
  strip_design (sym c) plies ref sst -> thin_table (sym c) plies ref = Ok table ->
  repair_thick_to_thin c st lampam dist targets weights panel_weightings plies ref local_limit global_limit table (sst, lps, ss) = Ok (done, (sst', lps', ss')) ->
  (done = false -> (sst', lps', ss') = (sst, lps, ss)) /\
  (done = true ->
     (length sst' = length sst /\ length lps' = length lps /\ length ss' = length ss) /\
     (forall j, (ref <= j)%nat -> nth j sst' [] = nth j sst [] /\ nth j lps' [] = nth j lps [] /\ nth j ss' [] = nth j ss []) /\
     forall j, (j < ref)%nat -> thinner_panel c lampam dist plies (nth ref sst []) sst' j /\ nth j ss' [] = plies_of (nth j sst' [])).
Proof.
  intros c st lampam dist targets weights pw plies ref ll gl table sst lps ss done sst' lps' ss' [D1 D2 D3 D4 D5 D6 D7] HT H.
  assert (D1' : 0 <= last plies 0) by (unfold zlen in D5; lia).
  assert (L : length (nth ref sst []) = n_max plies) by (unfold n_max; unfold zlen in D5; lia).
  assert (Hr : nth_error sst ref = Some (nth ref sst [])) by (apply nth_error_nth'; lia).
  destruct (thin_result c st lampam dist targets weights pw plies ref _ D1 D2 D3 L D7 D6 ll gl table sst lps ss done sst' lps' ss' HT Hr H) as (A & B).
  split; [exact A|]. intros E. destruct (B E) as (B1 & B2 & B3). split; [exact B1|]. split; [exact B2|]. intros j Hj. destruct (B3 j Hj) as (B4 & B5). split; [|exact B5].
  destruct B4 as (R1 & R2 & R3 & R4 & R5 & (R6 & R7) & R8). unfold thinner_panel. cbv zeta. split; [exact R1|]. split; [unfold zlen; rewrite R2; unfold n_max; lia|]. split; [exact R3|].
  split; [exact R4|]. split; [rewrite R2; exact R5|]. split; [split; [apply breaks_contig_spec, R6|exact R7]|exact R8].
Qed.
Print Assumptions C37_thick_to_thin_partial.

(* ------------------------------------------------------------------ *)
(** ** panels thicker than the reference panel *)
Definition thicker_panel (c : cons) (lampam : list Z -> list Q) (dist : list Q -> Q) (plies : list Z) (ss_ref : list Z) (ss : list Z) (j : nat) : Prop :=
  zlen ss = nth j plies 0 /\ enforced c lampam dist ss /\
  (diso c = true -> Forall angle_ok ss_ref -> Forall angle_ok (set_of_angles c) -> forall m, covered_plies c ss m -> m <> [] -> diso_stack (delta_angle c) m) /\
  nearly_as_balanced c ss ss_ref /\
  (covering c = true -> firstn (n_covering c) ss = firstn (n_covering c) ss_ref /\ lastn (n_covering c) ss = lastn (n_covering c) ss_ref) /\
  (forall a, In a ss -> In a ss_ref \/ In a (set_of_angles c)).

(** the rows up to the reference panel are blended, as left by the first stage *)
Theorem C37_thin_to_thick_partial : forall c st lampam dist targets weights panel_weightings plies ref local_limit global_limit table sst lps ss done sst' lps' ss',
  strip_design (sym c) plies ref sst -> ~ In dropped (set_of_angles c) ->
  (forall j, (j < ref)%nat -> drops_from (nth j sst []) (nth (S j) sst [])) ->
  (sym c = true -> forall j, (j < ref)%nat -> palindrome (nth j sst [])) ->
  (forall j, (j <= ref)%nat -> nth j ss [] = plies_of (nth j sst [])) ->
  thick_table (sym c) plies ref = Ok table ->
  repair_thin_to_thick c st lampam dist targets weights panel_weightings plies ref local_limit global_limit table (sst, lps, ss) = Ok (done, (sst', lps', ss')) ->
  (done = false -> lps' = lps /\ ss' = ss) /\
  (done = true -> length sst' = length plies /\ blended sst' /\
     forall j, (j < length plies)%nat ->
       zlen (nth j sst' []) = last plies 0 /\ (sym c = true -> palindrome (nth j sst' [])) /\ nth j ss' [] = plies_of (nth j sst' []) /\
       ((j <= ref)%nat -> nth j ss' [] = nth j ss []) /\
       ((ref < j)%nat -> thicker_panel c lampam dist plies (nth ref ss []) (nth j ss' []) j)).
Proof.
  intros c st lampam dist targets weights pw plies ref ll gl table sst lps ss done sst' lps' ss' [D1 D2 D3 D4 D5 D6 D7] Hset Hbl Hmir Hss HT H.
  assert (Hp : 0 <= nth ref plies 0) by (rewrite <- D6; unfold zlen; lia).
  assert (Hmir' : sym c = true -> forall j, (j <= ref)%nat -> palindrome (nth j sst [])).
  { intros Y j Hj. destruct (Nat.eq_dec j ref) as [->|E]; [apply D7, Y|apply Hmir; [exact Y|lia]]. }
  destruct (thick_result c st lampam dist targets weights pw plies ref sst Hset D1 D2 D3 D4 Hbl Hmir' D6 ll gl table lps ss done sst' lps' ss' Hp HT Hss H) as (A & B).
  split; [exact A|]. intros E. destruct (B E) as (B1 & B2 & B3). split; [exact B1|]. split; [exact B2|]. intros j Hj. destruct (B3 j Hj) as (B4 & B5).
  destruct B4 as (R1 & R2 & R3 & R4). split; [exact R1|]. split; [exact R2|]. split; [exact B5|]. split; [intros Hj'; rewrite B5, (R3 Hj'); symmetry; apply Hss, Hj'|].
  intros Hj'. destruct (R4 Hj') as (R5 & (R6 & R7 & R8) & R9 & R10 & R11). rewrite <- B5 in *. rewrite <- (Hss ref (le_n _)) in *. unfold thicker_panel.
  split; [exact R5|]. split; [split; [apply breaks_contig_spec, R7|exact R8]|]. split; [|split; [exact R9|split; [exact R10|exact R11]]].
  intros Ed F1 F2. apply breaks_diso_spec; [exact R6|exact Ed|]. rewrite Forall_forall in *. intros a Ha. destruct (R11 a Ha); auto.
Qed.
Print Assumptions C37_thin_to_thick_partial.

(* ------------------------------------------------------------------ *)
(** ** both stages, repair_mp.py steps 4.2 and 4.3 *)
Theorem C37_redesign_partial : forall c st lampam dist targets weights panel_weightings plies ref local_limit global_limit thin thick sst lps ss sst1 lps1 ss1 sst2 lps2 ss2,
  strip_design (sym c) plies ref sst -> ~ In dropped (set_of_angles c) -> nth ref ss [] = plies_of (nth ref sst []) ->
  thin_table (sym c) plies ref = Ok thin -> thick_table (sym c) plies ref = Ok thick ->
  repair_thick_to_thin c st lampam dist targets weights panel_weightings plies ref local_limit global_limit thin (sst, lps, ss) = Ok (true, (sst1, lps1, ss1)) ->
  repair_thin_to_thick c st lampam dist targets weights panel_weightings plies ref local_limit global_limit thick (sst1, lps1, ss1) = Ok (true, (sst2, lps2, ss2)) ->
  nth ref ss2 [] = nth ref ss [] /\ length sst2 = length plies /\ blended sst2 /\
  (forall j, (j < length plies)%nat -> nth j ss2 [] = plies_of (nth j sst2 []) /\ zlen (nth j sst2 []) = last plies 0 /\ zlen (nth j ss2 []) = nth j plies 0 /\
     (sym c = true -> palindrome (nth j ss2 [])) /\ (j <> ref -> enforced c lampam dist (nth j ss2 []) /\ nearly_as_balanced c (nth j ss2 []) (nth ref ss []))) /\
  (forall j, (S j < length plies)%nat -> sublist (nth j ss2 []) (nth (S j) ss2 [])).
Proof.
  intros c st lampam dist targets weights pw plies ref ll gl thin thick sst lps ss sst1 lps1 ss1 sst2 lps2 ss2 D Hset Hss HT1 HT2 H1 H2.
  destruct (C37_thick_to_thin_partial _ _ _ _ _ _ _ _ _ _ _ _ _ _ _ _ _ _ _ D HT1 H1) as (_ & A). destruct (A eq_refl) as ((L1 & _ & _) & K & T). clear A.
  destruct (K ref (le_n _)) as (K1 & _ & K3).
  assert (D' : strip_design (sym c) plies ref sst1).
  { destruct D as [D1 D2 D3 D4 D5 D6 D7]. constructor; try assumption; try (rewrite K1; assumption). lia. }
  assert (Hs1 : forall j, (j <= ref)%nat -> nth j ss1 [] = plies_of (nth j sst1 [])).
  { intros j Hj. destruct (Nat.eq_dec j ref) as [->|E]; [rewrite K1, K3; exact Hss|]. apply T. lia. }
  destruct (C37_thin_to_thick_partial c st lampam dist targets weights pw plies ref ll gl thick sst1 lps1 ss1 true sst2 lps2 ss2 D' Hset) as (_ & B); try assumption.
  { intros j Hj. apply (T j Hj). }
  { intros Y j Hj. destruct (T j Hj) as ((_ & _ & _ & P & _) & _). apply P, Y. }
  destruct (B eq_refl) as (B1 & B2 & B3). clear B. pose proof (d_ref _ _ _ _ D) as Href.
  assert (R : nth ref ss2 [] = nth ref ss []) by (destruct (B3 ref Href) as (_ & _ & _ & E & _); rewrite (E (le_n _)); exact K3).
  split; [exact R|]. split; [exact B1|]. split; [exact B2|]. split.
  - intros j Hj. destruct (B3 j Hj) as (E1 & E2 & E3 & E4 & E5). split; [exact E3|]. split; [exact E1|].
    split; [|split; [intros Y; rewrite E3; apply plies_mirror, E2, Y|]].
    + destruct (lt_eq_lt_dec j ref) as [[X|X]|X].
      * rewrite (E4 ltac:(lia)). destruct (T j X) as ((_ & _ & C & _) & E). rewrite E. exact C.
      * subst j. rewrite R, Hss. apply (d_count _ _ _ _ D).
      * apply (E5 X).
    + intros Hne. destruct (lt_eq_lt_dec j ref) as [[X|X]|X]; [|contradiction|].
      * rewrite (E4 ltac:(lia)). destruct (T j X) as ((_ & _ & _ & _ & _ & C1 & C2) & E). rewrite E. split; [exact C1|]. rewrite Hss. exact C2.
      * destruct (E5 X) as (_ & C1 & _ & C2 & _). split; [exact C1|]. rewrite <- K3. exact C2.
  - intros j Hj. destruct (B3 j ltac:(lia)) as (_ & _ & E & _). destruct (B3 (S j) Hj) as (_ & _ & E' & _). rewrite E, E'. apply drops_sublist_plies, B2. lia.
Qed.
Print Assumptions C37_redesign_partial.

(* ---------------- concrete cases ---------------- *)
Definition args_re (sy bl r10 : bool) : cargs := {|
  a_sym := sy; a_bal := bl; a_oopo := false; a_dam_tol := false;
  a_rule_10_percent := r10; a_rule_10_Abdalla := false; a_percent_Abdalla := 0;
  a_combine_45_135 := true; a_calc_combine_45_135 := true;
  a_percent_0 := 10; a_percent_45 := 0; a_percent_90 := 10; a_percent_135 := 0;
  a_percent_45_135 := 10;
  a_diso := false; a_contig := true; a_n_contig := 5; a_delta_angle := 45;
  a_dam_tol_rule := 1; a_set_of_angles := [0; 45; 90; -45]; a_min_drop := 2;
  a_pdl_spacing := true; a_covering := false; a_n_covering := 0 |}.
(** in-plane lamination parameters stand for the twelve *)
Definition lp_4 (ss : list Z) : list Q := map (fun i => Qred (in_plane cos_sin_4 ss i)) (seq 0 4).
Definition no_dist (_ : list Q) : Q := 0%Q.
Definition chain_strip (n : nat) : strip :=
  let b := map (fun i => (i, S i)) (seq 0 (n - 1)) in {| s_boundaries := b; s_weights := map (fun p => (p, 1%Q)) b |}.
Definition all {A} (x : A) (plies : list Z) : list A := map (fun _ => x) plies.
Definition thin_run (c : cons) (target : list Q) (plies : list Z) (ref : nat) (table : option (list step)) (sst : list (list Z)) : result (bool * tables) :=
  repair_thick_to_thin c (chain_strip (length plies)) lp_4 no_dist (all target plies) (all [1; 1; 1; 1]%Q plies) (all 1%Q plies) plies ref 3 4 table (sst, map lp_4 (map plies_of sst), map plies_of sst).
Definition thick_run (c : cons) (target : list Q) (plies : list Z) (ref : nat) (table : option (list step)) (t : tables) : result (bool * tables) :=
  repair_thin_to_thick c (chain_strip (length plies)) lp_4 no_dist (all target plies) (all [1; 1; 1; 1]%Q plies) (all 1%Q plies) plies ref 3 4 table t.

Definition three_panels : list (list Z) :=
  [[0;45;-45;90;-1;-1;-1;-1;-1;-1;-1;-1;90;-45;45;0]; [0;45;-45;90;0;90;-1;-1;-1;-1;90;0;90;-45;45;0]; [0;45;-45;90;0;90;45;-45;-45;45;90;0;90;-45;45;0]].

Lemma three_panels_design : strip_design true [8; 12; 16] 1 three_panels.
Proof.
  constructor; try reflexivity; try (cbn; lia).
  - repeat constructor.
  - intros _ [|[|[|i]]] Hi; try reflexivity. cbn in Hi. lia.
Qed.

(** the hypotheses of [C37_redesign_partial] are met and both stages succeed *)
Example C37_example : exists c thin thick t1 t2, mk_cons (args_re true true true) = Ok c /\ strip_design (sym c) [8; 12; 16] 1 three_panels /\ ~ In dropped (set_of_angles c) /\
  thin_table (sym c) [8; 12; 16] 1 = Ok thin /\ thick_table (sym c) [8; 12; 16] 1 = Ok thick /\
  thin_run c [0; 0; 0; 0]%Q [8; 12; 16] 1 thin three_panels = Ok (true, t1) /\ thick_run c [0; 0; 0; 0]%Q [8; 12; 16] 1 thick t1 = Ok (true, t2) /\
  snd t2 = [[45; 90; 0; 90; 90; 0; 90; 45]; [0; 45; -45; 90; 0; 90; 90; 0; 90; -45; 45; 0]; [0; 0; 45; 0; -45; 90; 0; 90; 90; 0; 90; -45; 0; 45; 0; 0]].
Proof.
  destruct (mk_cons (args_re true true true)) as [c|] eqn:E; [|vm_compute in E; discriminate]. exists c.
  assert (Y : sym c = true) by (vm_compute in E; injection E as <-; reflexivity).
  assert (S0 : ~ In dropped (set_of_angles c)) by (vm_compute in E; injection E as <-; cbn; intuition discriminate).
  rewrite Y. vm_compute in E. injection E as <-. do 4 eexists. split; [reflexivity|]. split; [exact three_panels_design|]. split; [exact S0|].
  split; [vm_compute; reflexivity|]. split; [vm_compute; reflexivity|]. split; [vm_compute; reflexivity|]. split; [vm_compute; reflexivity|]. vm_compute. reflexivity.
Qed.

(** with balance active and a balanced reference panel, the balance of the re-designed panels
    is only as good as [nearly_as_balanced] says *)
Theorem C37_balance_refuted : ~ (forall a c plies ref table sst lps ss sst' lps' ss', mk_cons a = Ok c -> bal c = true ->
  strip_design (sym c) plies ref sst -> thin_table (sym c) plies ref = Ok table -> balanced (plies_of (nth ref sst [])) ->
  lps = map lp_4 ss -> ss = map plies_of sst ->
  repair_thick_to_thin c (chain_strip (length plies)) lp_4 no_dist (all [0;0;0;0]%Q plies) (all [1; 1; 1; 1]%Q plies) (all 1%Q plies) plies ref 3 4 table (sst, lps, ss) = Ok (true, (sst', lps', ss')) ->
  forall j, (j < ref)%nat -> balanced (nth j ss' [])).
Proof.
  intros H. destruct (mk_cons (args_re true true true)) as [c|] eqn:E; [|vm_compute in E; discriminate].
  specialize (H (args_re true true true) c [8; 12; 16] 1%nat). destruct (thin_table (sym c) [8; 12; 16] 1) as [table|] eqn:ET; [|vm_compute in E; injection E as <-; vm_compute in ET; discriminate].
  specialize (H table three_panels (map lp_4 (map plies_of three_panels)) (map plies_of three_panels)).
  destruct (thin_run c [0; 0; 0; 0]%Q [8; 12; 16] 1 table three_panels) as [[done [[sst' lps'] ss']]|] eqn:ER; [|vm_compute in E; injection E as <-; vm_compute in ET; injection ET as <-; vm_compute in ER; discriminate].
  specialize (H sst' lps' ss' E). vm_compute in E. injection E as <-. vm_compute in ET. injection ET as <-.
  specialize (H eq_refl three_panels_design eq_refl).
  assert (B : balanced (plies_of (nth 1 three_panels []))).
  { intros x Hx Hx'. destruct (Z.eq_dec x 45) as [->|N]; [reflexivity|]. destruct (Z.eq_dec x (-45)) as [->|N']; [reflexivity|].
    rewrite !(proj1 (count_occ_not_In Z.eq_dec _ _)); [reflexivity| |]; cbn; intuition lia. }
  specialize (H B eq_refl eq_refl). unfold thin_run in ER. vm_compute in ER. injection ER as <- <- <- <-. specialize (H ltac:(vm_compute; reflexivity) 0%nat ltac:(lia) 45 ltac:(lia) ltac:(lia)).
  vm_compute in H. discriminate.
Qed.
Print Assumptions C37_balance_refuted.

(** a symmetric structure in which only the thickest panel has a middle ply: the second stage
    reports success with a table in which that panel has lost it *)
Theorem C37_middle_ply_refuted : ~ (forall a c plies ref table sst lps ss sst' lps' ss', mk_cons a = Ok c -> StronglySorted Z.lt plies -> (ref < length plies)%nat ->
  length sst = length plies -> blended sst -> (forall j, (j < length plies)%nat -> palindrome (nth j sst []) /\ zlen (plies_of (nth j sst [])) = nth j plies 0) ->
  thick_table (sym c) plies ref = Ok table -> lps = map lp_4 ss -> ss = map plies_of sst ->
  thick_run c [0; 0; 0; 0]%Q plies ref table (sst, lps, ss) = Ok (true, (sst', lps', ss')) ->
  forall j, (j < length plies)%nat -> zlen (plies_of (nth j sst' [])) = nth j plies 0).
Proof.
  intros H. destruct (mk_cons (args_re true false false)) as [c|] eqn:E; [|vm_compute in E; discriminate].
  specialize (H (args_re true false false) c [2; 3] 0%nat None [[0; -1; 0]; [0; 90; 0]] (map lp_4 [[0; 0]; [0; 90; 0]]) [[0; 0]; [0; 90; 0]] [[0; 0]; [0; 0]] (map lp_4 [[0; 0]; [0; 90; 0]]) [[0; 0]; [0; 90; 0]] E).
  vm_compute in E. injection E as <-.
  assert (A : zlen (plies_of (nth 1 [[0; 0]; [0; 0]] [])) = nth 1 [2; 3] 0); [|vm_compute in A; discriminate].
  apply H; try reflexivity; try (cbn; lia).
  - repeat constructor.
  - intros [|i] Hi; cbn in Hi; [|lia]. unfold drops_from. cbn [nth]. repeat (apply Forall2_cons; [first [left; reflexivity|right; reflexivity]|]). apply Forall2_nil.
  - intros [|[|i]] Hi; cbn in Hi; try lia; split; reflexivity.
Qed.
Print Assumptions C37_middle_ply_refuted.

(* ------------------------------------------------------------------ *)
(** ** C54: each candidate is judged on its own values *)
(** the table of lamination parameters handed back is that of other candidates *)
Theorem C54_reported_lampam_refuted : ~ (forall a c target plies ref table sst sst' lps' ss', mk_cons a = Ok c ->
  strip_design (sym c) plies ref sst -> thin_table (sym c) plies ref = Ok table ->
  thin_run c target plies ref table sst = Ok (true, (sst', lps', ss')) ->
  forall j, (j < length plies)%nat -> nth j lps' [] = lp_4 (nth j ss' [])).
Proof.
  intros H. destruct (mk_cons (args_re true false false)) as [c|] eqn:E; [|vm_compute in E; discriminate].
  destruct (thin_table true [2; 4] 1) as [table|] eqn:ET; [|vm_compute in ET; discriminate].
  specialize (H (args_re true false false) c [1; 1; 0; 0]%Q [2; 4] 1%nat table [[0; -1; -1; 0]; [0; 90; 90; 0]] [[-1; 90; 90; -1]; [0; 90; 90; 0]] [[1; 1; 0; 0]; [0; 1; 0; 0]]%Q [[90; 90]; [0; 90; 90; 0]] E).
  vm_compute in E. injection E as <-. vm_compute in ET. injection ET as <-.
  assert (D : strip_design true [2; 4] 1 [[0; -1; -1; 0]; [0; 90; 90; 0]]).
  { constructor; try reflexivity; try (cbn; lia); [repeat constructor|]. intros _ [|[|i]] Hi; try reflexivity. cbn in Hi. lia. }
  specialize (H D eq_refl ltac:(vm_compute; reflexivity) 0%nat ltac:(cbn; lia)). vm_compute in H. discriminate.
Qed.
Print Assumptions C54_reported_lampam_refuted.

(** ... and so is the objective on which it is chosen: one pair of plies to drop, no guideline
    in the way, a panel that matches its target exactly is refused for another *)
Theorem C54_chosen_panel_refuted : ~ (forall a c target n1 n2 table sst sst' lps' ss', mk_cons a = Ok c -> sym c = true -> n2 = n1 + 2 -> n2 <= 6 ->
  strip_design (sym c) [n1; n2] 1 sst -> thin_table (sym c) [n1; n2] 1 = Ok table ->
  thin_run c target [n1; n2] 1 table sst = Ok (true, (sst', lps', ss')) ->
  forall r o o', drops_from r (nth 1 sst []) -> palindrome r -> zlen (plies_of r) = n1 -> contig_stack (n_contig c) (plies_of r) ->
    calc_obj_one_panel (lp_4 (nth 0 ss' [])) target [1; 1; 1; 1]%Q = Ok o -> calc_obj_one_panel (lp_4 (plies_of r)) target [1; 1; 1; 1]%Q = Ok o' -> (o <= o')%Q).
Proof.
  intros H. destruct (mk_cons (args_re true false false)) as [c|] eqn:E; [|vm_compute in E; discriminate].
  destruct (thin_table true [2; 4] 1) as [table|] eqn:ET; [|vm_compute in ET; discriminate].
  specialize (H (args_re true false false) c [1; 1; 0; 0]%Q 2 4 table [[0; -1; -1; 0]; [0; 90; 90; 0]] [[-1; 90; 90; -1]; [0; 90; 90; 0]] [[1; 1; 0; 0]; [0; 1; 0; 0]]%Q [[90; 90]; [0; 90; 90; 0]] E).
  vm_compute in E. injection E as <-. vm_compute in ET. injection ET as <-.
  assert (D : strip_design true [2; 4] 1 [[0; -1; -1; 0]; [0; 90; 90; 0]]).
  { constructor; try reflexivity; try (cbn; lia); [repeat constructor|]. intros _ [|[|i]] Hi; try reflexivity. cbn in Hi. lia. }
  specialize (H eq_refl eq_refl ltac:(lia) D eq_refl ltac:(vm_compute; reflexivity) [0; -1; -1; 0] 4%Q 0%Q).
  assert (A : (4 <= 0)%Q); [|vm_compute in A; congruence].
  apply H; try reflexivity.
  - unfold drops_from. cbn [nth]. repeat (apply Forall2_cons; [first [left; reflexivity|right; reflexivity]|]). apply Forall2_nil.
  - intros (x & l1 & l2 & E). apply (f_equal (@length Z)) in E. rewrite !app_length, repeat_length in E. cbn in E. lia.
Qed.
Print Assumptions C54_chosen_panel_refuted.

(** the 10% rule as percentages is tested on the ply counts of other candidates: it is active,
    the reference panel satisfies it, the panel handed back has no ply at 0 *)
Theorem C54_ten_percent_refuted : ~ (forall a c target plies ref table sst sst' lps' ss', mk_cons a = Ok c ->
  rule_10_percent c = true -> rule_10_Abdalla c = false -> strip_design (sym c) plies ref sst -> thin_table (sym c) plies ref = Ok table ->
  (percent_0 c <= share_of 0 (plies_of (nth ref sst [])))%Q ->
  thin_run c target plies ref table sst = Ok (true, (sst', lps', ss')) ->
  forall j, (j < ref)%nat -> (percent_0 c <= share_of 0 (nth j ss' []))%Q).
Proof.
  intros H. destruct (mk_cons (args_re false false true)) as [c|] eqn:E; [|vm_compute in E; discriminate].
  destruct (thin_table false [3; 4; 5] 2) as [table|] eqn:ET; [|vm_compute in ET; discriminate].
  set (sst := [[0; 45; 90; -1; -1]; [0; 45; 90; 0; -1]; [0; 45; 90; 0; 90]]).
  assert (D : strip_design false [3; 4; 5] 2 sst).
  { clear -sst. constructor; try reflexivity; try (cbn; lia); try discriminate. repeat constructor. }
  destruct (thin_run c [0; 1; 0; 0]%Q [3; 4; 5] 2 table sst) as [[done [[sst' lps'] ss']]|] eqn:ER.
  2: { vm_compute in E. injection E as <-. vm_compute in ET. injection ET as <-. vm_compute in ER. discriminate. }
  specialize (H (args_re false false true) c [0; 1; 0; 0]%Q [3; 4; 5] 2%nat table sst sst' lps' ss' E).
  vm_compute in E. injection E as <-. vm_compute in ET. injection ET as <-.
  specialize (H eq_refl eq_refl D eq_refl ltac:(vm_compute; discriminate)).
  vm_compute in ER. injection ER as <- <- <- <-. specialize (H ltac:(vm_compute; reflexivity) 0%nat ltac:(lia)). vm_compute in H. congruence.
Qed.
Print Assumptions C54_ten_percent_refuted.
