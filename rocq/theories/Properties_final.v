(* Properties_final.v - property theorem C64: the design that the search returns. *)
From Coq Require Import Lqa Qabs Setoid Sorting.Sorted.
From Verif Require Import Base Constraints Guidelines SpecGuidelines GuidelinesProofs ConstraintsProofs GateProofs Properties_guidelines Spacing Strip Search Objectives ObjectivesProofs
  Format SpecRedesign Redesign Properties_redesign RepairMp Properties_repairmp Properties_objectives Stiffness StiffnessProofs Properties_ortho Properties_repairdiso Properties_membrane Final.
Local Open Scope Z_scope.

(* ------------------------------------------------------------------ *)
(** ** Specification *)
Section Spec.
Variables (c : cons) (panels : list fpanel) (lampam : list Z -> list Q) (pen10 : list Z -> list Q -> result Q).
Variables (targets weights : list (list Q)) (panel_weightings : list Q) (coeffs : coefficients).
Variable repair : list (list Z) -> result repaired.

(** the stack of a panel from the halves of a design: a symmetric stack is the first half and its
    mirror image, which share the middle ply if the panel has one *)
Definition joined (p : fpanel) (part : list Z * list Z) (s : list Z) : Prop :=
  zlen s = f_plies p /\
  (sym c = false -> s = fst part ++ snd part) /\
  (sym c = true -> f_middle p = false -> s = fst part ++ rev (fst part)) /\
  (sym c = true -> f_middle p = true -> exists l m, fst part = l ++ [m] /\ s = l ++ m :: rev l).

(** Σ_k weighting_k (lampam_k - target_k)² for panel i *)
Definition panel_objective (ss : list (list Z)) (i : nat) : Q :=
  let l := lampam (nth i ss []) in let t := nth i targets [] in
  sum_to (length t) (fun k => nth k (nth i weights []) 0 * ((nth k l 0 - nth k t 0) * (nth k l 0 - nth k t 0)))%Q.

(** q is the number of violations of a guideline in a stack over its number of plies, 0 when the guideline is not active *)
Definition violations (active : bool) (bad : list Z -> nat -> Prop) (p : fpanel) (s : list Z) (q : Q) : Prop :=
  if active then exists n, (q == inject_Z n / inject_Z (f_plies p))%Q /\ forall m, covered_plies c s m -> counts n (bad m)
  else (q == 0)%Q.
Definition panel0 : fpanel := {| f_plies := 0; f_middle := false; f_middle_index := 0 |}.
(** the penalties of the stacks for the disorientation, contiguity and 10% rules *)
Definition penalised (ss : list (list Z)) (pd pc pt : list Q) : Prop :=
  forall i, (i < length panels)%nat ->
    violations (diso c) (diso_bad_at (delta_angle c)) (nth i panels panel0) (nth i ss []) (nth i pd 0%Q) /\
    violations (contig c) (fun m j => block_at (S (n_contig c)) j m) (nth i panels panel0) (nth i ss []) (nth i pc 0%Q) /\
    pen10 (nth i ss []) (lampam (nth i ss [])) = Ok (nth i pt 0%Q).
Definition penalised_objective (ss : list (list Z)) (pd pc pt : list Q) : Q :=
  sum_to (length panels) (fun i => nth i panel_weightings 0 * panel_objective ss i
    * (1 + c_diso coeffs * nth i pd 0) * (1 + c_contig coeffs * nth i pc 0) * (1 + c_10 coeffs * nth i pt 0))%Q.

(** the repair of the design [d] gives [r] *)
Definition repaired_to (d : list (list Z * list Z)) (r : repaired) : Prop :=
  exists stacks, Forall2 (fun pp s => joined (fst pp) (snd pp) s) (List.combine panels d) stacks /\ repair stacks = Ok r.

(** value of a design: 1e10 if it could not be repaired, else its penalised objective *)
Definition valued (r : repaired) (q : Q) : Prop :=
  (x_done r = false -> (q == 10000000000)%Q) /\
  (x_done r = true -> (exists i, (i < length panels)%nat /\ (panel_objective (x_ss r) i == 10000000000)%Q) -> (q == 10000000000)%Q) /\
  (x_done r = true -> (forall i, (i < length panels)%nat -> ~ (panel_objective (x_ss r) i == 10000000000)%Q) ->
     exists pd pc pt, penalised (x_ss r) pd pc pt /\ (q == penalised_objective (x_ss r) pd pc pt)%Q).

(** the inputs: one target, one vector of weightings and one weighting for each panel; a
    successful repair gives one stack of known angles to each panel *)
Record inputs (designs : list (list (list Z * list Z))) : Prop := {
  n_panels : panels <> [];
  n_targets : length targets = length panels; n_weights : length weights = length panels; n_weightings : length panel_weightings = length panels;
  n_nonneg : Forall (Forall (fun w => 0 <= w)%Q) weights;
  n_contig_ok : contig_supported c;
  n_middle : forall p, In p panels -> f_middle p = true -> 2 * Z.of_nat (f_middle_index p) = f_plies p + 1;
  n_repair : forall d r, In d designs -> repaired_to d r -> x_done r = true ->
    length (x_ss r) = length panels /\
    forall s, In s (x_ss r) -> Forall angle_ok s /\ ~ covered_plies c s [] }.
End Spec.

(* ------------------------------------------------------------------ *)
(** ** Proofs *)
Lemma F2_length {A B} (P : A -> B -> Prop) l m : Forall2 P l m -> length l = length m.
Proof. intros H; induction H; cbn; auto. Qed.
Lemma mapM_len {A B} (f : A -> result B) l r : mapM f l = Ok r -> length r = length l.
Proof. intros H. apply mapM_inv, F2_length in H. auto. Qed.
Lemma Forall2_nth' {A B} (P : A -> B -> Prop) l m a b : Forall2 P l m -> forall i, (i < length l)%nat -> P (nth i l a) (nth i m b).
Proof. intros H; induction H; intros [|i] Hi; cbn in *; try lia; auto. apply IHForall2; lia. Qed.
Lemma combine_nth' {A B} (l : list A) (m : list B) i a b : length l = length m -> nth i (List.combine l m) (a, b) = (nth i l a, nth i m b).
Proof. apply combine_nth. Qed.
Lemma combine_len {A B} (l : list A) (m : list B) : length l = length m -> length (List.combine l m) = length l.
Proof. intros H. rewrite combine_length. lia. Qed.
Lemma del_app_r {A} (l m : list A) i : (length l <= i)%nat -> del i (l ++ m) = l ++ del (i - length l) m.
Proof. revert i; induction l as [|x l IH]; intros i Hi; cbn in *. { f_equal. lia. } destruct i as [|i]; [lia|]. cbn. f_equal. apply IH. lia. Qed.

Lemma nth_map' {A B} (f : A -> B) l i a b : (i < length l)%nat -> nth i (map f l) b = f (nth i l a).
Proof. intros H. rewrite (nth_indep _ b (f a)) by (rewrite map_length; auto). apply map_nth. Qed.

Section Proofs.
Variables (c : cons) (panels : list fpanel) (lampam : list Z -> list Q) (pen10 : list Z -> list Q -> result Q).
Variables (targets weights : list (list Q)) (panel_weightings : list Q) (coeffs : coefficients).
Variable repair : list (list Z) -> result repaired.
Variable designs : list (list (list Z * list Z)).
Hypothesis I : inputs c panels targets weights panel_weightings repair designs.

Lemma full_stack_joined p part s : In p panels -> full_stack c p part = Ok s -> joined c p part s.
Proof.
  intros Hp. unfold full_stack, guard. destruct part as [bot top]; cbn [fst snd].
  match goal with |- (do s <- ?X; _) = _ -> _ => destruct X as [s0|] eqn:E end; cbn [bind]; [|discriminate].
  destruct (Z.eqb_spec (zlen s0) (f_plies p)) as [L|]; cbn [negb bind]; [|discriminate]. intros X; injection X as <-.
  unfold joined; cbn [fst snd]. split; [exact L|].
  destruct (sym c) eqn:Y.
  2: { split; [|split; discriminate]. intros _. congruence. }
  split; [discriminate|]. destruct (f_middle p) eqn:M.
  2: { split; [|discriminate]. intros _ _. congruence. }
  split; [discriminate|]. intros _ _. pose proof (n_middle _ _ _ _ _ _ _ I p Hp M) as N.
  unfold delete_at in E. destruct (Nat.ltb_spec (f_middle_index p) (length (bot ++ rev bot))) as [Hi|]; [|discriminate].
  injection E as <-. unfold zlen in L. rewrite app_length, rev_length in Hi.
  assert (Ld : forall (l : list Z) i, (i < length l)%nat -> length (del i l) = (length l - 1)%nat).
  { clear. induction l as [|x l IH]; intros [|i] Hi; cbn in *; try lia. rewrite IH; lia. }
  rewrite Ld, app_length, rev_length in L by (rewrite app_length, rev_length; lia).
  assert (f_middle_index p = length bot) as -> by lia.
  destruct (rev bot) as [|m l] eqn:R. { assert (length (rev bot) = 0)%nat by (rewrite R; reflexivity). rewrite rev_length in H. lia. }
  assert (bot = rev l ++ [m]) as -> by (rewrite <- (rev_involutive bot), R; reflexivity).
  exists (rev l), m. split; [reflexivity|]. rewrite del_app_r by lia. rewrite Nat.sub_diag. cbn [del]. rewrite rev_involutive, <- app_assoc. reflexivity.
Qed.

Lemma full_stacks_joined ps d stacks : (forall p, In p ps -> In p panels) -> full_stacks c ps d = Ok stacks ->
  Forall2 (fun pp s => joined c (fst pp) (snd pp) s) (List.combine ps d) stacks.
Proof.
  revert d stacks; induction ps as [|p ps IH]; intros d stacks H; cbn [full_stacks].
  { intros X; injection X as <-. constructor. }
  destruct d as [|part d]; [discriminate|].
  destruct (full_stack c p part) as [s|] eqn:E; cbn [bind]; [|discriminate].
  destruct (full_stacks c ps d) as [r|] eqn:E'; cbn [bind]; [|discriminate]. intros X; injection X as <-.
  constructor; [apply full_stack_joined; auto; apply H; left; reflexivity|]. apply IH; auto. intros q Hq; apply H; right; auto.
Qed.

Lemma each_panel_spec ss obj : length ss = length panels -> each_panel targets weights (map lampam ss) = Ok obj ->
  length obj = length panels /\ forall i, (i < length panels)%nat -> (nth i obj 0 == panel_objective lampam targets weights ss i)%Q.
Proof.
  intros L. unfold each_panel. pose proof (n_targets _ _ _ _ _ _ _ I) as T. pose proof (n_weights _ _ _ _ _ _ _ I) as W. pose proof (n_nonneg _ _ _ _ _ _ _ I) as N.
  unfold panel_objective. clear I. revert obj T W N. revert targets weights. revert L. revert ss. induction panels as [|p ps IH]; intros ss L ts ws obj T W N.
  { destruct ss; [|discriminate]. cbn. intros X; injection X as <-. split; [reflexivity|]. cbn; intros; lia. }
  destruct ss as [|s ss]; [discriminate|]. destruct ts as [|t ts]; [discriminate|]. destruct ws as [|w ws]; [discriminate|].
  cbn [map List.combine calc_obj_each_panel fst snd]. inversion N as [|? ? N1 N2]; subst.
  destruct (calc_obj_one_panel (lampam s) t w) as [o|] eqn:E; cbn [bind]; [|discriminate].
  match goal with |- (do r <- ?X; _) = _ -> _ => destruct X as [r|] eqn:E' end; cbn [bind]; [|discriminate].
  intros X; injection X as <-. cbn [length] in *. destruct (IH ss ltac:(lia) ts ws r ltac:(lia) ltac:(lia) N2 E') as [A B].
  split; [lia|]. intros [|i] Hi; cbn [nth].
  - apply C39_one_panel in E; [|intros x Hx; rewrite Forall_forall in N1; auto]. destruct E as (_ & _ & _ & V & _). exact V.
  - apply B. lia.
Qed.

Lemma over_plies_spec active n bad ss : length ss = length panels ->
  Forall2 (fun s k => active = true -> forall m, covered_plies c s m -> counts k (bad m)) ss n ->
  length (over_plies panels active n) = length panels /\
  forall i, (i < length panels)%nat -> violations c active bad (nth i panels panel0) (nth i ss []) (nth i (over_plies panels active n) 0%Q).
Proof.
  intros L F. assert (length n = length panels) as Ln by (apply F2_length in F; lia). unfold over_plies, violations.
  assert (Z0 : forall i, nth i (map (fun _ : fpanel => 0%Q) panels) 0%Q = 0%Q).
  { intros i. destruct (Nat.lt_ge_cases i (length panels)); [rewrite nth_map' with (a := panel0) by lia; reflexivity|apply nth_overflow; rewrite map_length; lia]. }
  destruct active; cbn [andb].
  2: { split; [apply map_length|]. intros i Hi. rewrite Z0. reflexivity. }
  destruct (existsb _ n) eqn:X.
  - split; [rewrite zip_length; rewrite !map_length; lia|]. intros i Hi. exists (nth i n 0). split.
    + rewrite zip_nth by (rewrite !map_length; lia). rewrite nth_map' with (a := 0) by lia. rewrite nth_map' with (a := panel0) by lia. reflexivity.
    + apply (Forall2_nth' _ _ _ [] 0 F i ltac:(lia) eq_refl).
  - split; [apply map_length|]. intros i Hi. exists (nth i n 0). rewrite Z0. split.
    + assert (nth i n 0 = 0) as ->. { assert (negb (nth i n 0 =? 0) = false) as Y. { destruct (negb (nth i n 0 =? 0)) eqn:Y; auto. assert (existsb (fun k => negb (k =? 0)) n = true); [|congruence]. apply existsb_exists. exists (nth i n 0). split; auto. apply nth_In; lia. } apply negb_false_iff, Z.eqb_eq in Y. exact Y. }
      unfold Qdiv. rewrite Qmult_0_l. reflexivity.
    + apply (Forall2_nth' _ _ _ [] 0 F i ltac:(lia) eq_refl).
Qed.

Lemma diso_numbers ss n : Forall (Forall angle_ok) ss -> (forall s, In s ss -> ~ covered_plies c s []) -> calc_number_violations_diso_mp ss c = Ok n ->
  Forall2 (fun s k => diso c = true -> forall m, covered_plies c s m -> counts k (diso_bad_at (delta_angle c) m)) ss n.
Proof.
  intros A N E. destruct (diso_penalty_mp_covered ss c A N) as [r [E' F]]. rewrite E' in E. injection E as <-.
  induction F; constructor; auto. apply IHF; [inversion A; auto|intros s Hs; apply N; right; auto|].
  unfold calc_number_violations_diso_mp, calc_penalty_diso_mp_0 in *. cbn [map mapM] in E'.
  destruct (viola_diso_1 (dt_trim c x) (delta_angle c)); cbn [bind] in E'; [|discriminate].
  destruct (mapM (fun s => viola_diso_1 s (delta_angle c)) (map (dt_trim c) l)); cbn [bind map] in *; [|discriminate]. congruence.
Qed.
Lemma contig_length ss n : calc_penalty_contig_mp ss c = Ok n -> length n = length ss.
Proof.
  unfold calc_penalty_contig_mp, calc_matrix_viol_contig. destruct (mapM _ _) as [v|] eqn:E; cbn [bind]; [|discriminate].
  intros X; injection X as <-. apply mapM_len in E. rewrite map_length, E, map_length. reflexivity.
Qed.
Lemma contig_numbers ss n : calc_penalty_contig_mp ss c = Ok n ->
  Forall2 (fun s k => contig c = true -> forall m, covered_plies c s m -> counts k (fun j => block_at (S (n_contig c)) j m)) ss n.
Proof.
  intros E. destruct (contig c) eqn:C.
  - destruct (n_contig_ok _ _ _ _ _ _ _ I C) as [K _]. destruct (contig_penalty_mp_covered ss c K) as [r [E' F]]. rewrite E' in E. injection E as <-. clear E'.
    induction F; constructor; auto.
  - apply contig_length in E. revert n E. induction ss as [|s ss IH]; intros [|k n] E; cbn in E; try discriminate; constructor; auto. discriminate.
Qed.

Lemma penalties_of_spec ss pd pc pt :
  length ss = length panels -> Forall (Forall angle_ok) ss -> (forall s, In s ss -> ~ covered_plies c s []) ->
  penalties_of c panels pen10 ss (map lampam ss) = Ok (pd, pc, pt) ->
  length pd = length panels /\ length pc = length panels /\ length pt = length panels /\ penalised c panels lampam pen10 ss pd pc pt.
Proof.
  intros L A N. unfold penalties_of.
  destruct (calc_number_violations_diso_mp ss c) as [n1|] eqn:E1; cbn [bind]; [|discriminate].
  destruct (calc_penalty_contig_mp ss c) as [n2|] eqn:E2; cbn [bind]; [|discriminate].
  destruct (mapM _ _) as [p10|] eqn:E3; cbn [bind]; [|discriminate]. intros X; injection X as <- <- <-.
  apply diso_numbers in E1; auto. apply contig_numbers in E2.
  destruct (over_plies_spec _ _ (diso_bad_at (delta_angle c)) ss L E1) as [L1 V1].
  destruct (over_plies_spec _ _ (fun m j => block_at (S (n_contig c)) j m) ss L E2) as [L2 V2].
  pose proof (mapM_len _ _ _ E3) as L3. rewrite combine_len in L3 by (rewrite map_length; auto).
  split; [auto|]. split; [auto|]. split; [lia|]. intros i Hi. split; [apply V1; auto|]. split; [apply V2; auto|].
  apply mapM_inv in E3. apply (Forall2_nth' _ _ _ ([], []) 0%Q) with (i := i) in E3; [|rewrite combine_len by (rewrite map_length; auto); lia].
  rewrite combine_nth' in E3 by (rewrite map_length; auto). cbn [fst snd] in E3. rewrite (nth_map' lampam _ _ []) in E3 by lia. exact E3.
Qed.

Lemma with_penalties_spec ss obj pd pc pt q :
  length obj = length panels -> (forall i, (i < length panels)%nat -> (nth i obj 0 == panel_objective lampam targets weights ss i)%Q) ->
  length pd = length panels -> length pc = length panels -> length pt = length panels ->
  with_penalties panels panel_weightings coeffs obj (pd, pc, pt) = Ok q ->
  (q == penalised_objective panels lampam targets weights panel_weightings coeffs ss pd pc pt)%Q.
Proof.
  intros Lo O L1 L2 L3. unfold with_penalties. pose proof (n_weightings _ _ _ _ _ _ _ I) as Lw.
  match goal with |- calc_obj_multi_panel _ _ ?p ?k = _ -> _ => destruct (C39_value obj panel_weightings p k (length panels) Lo Lw) as [r [E R]] end.
  { unfold all_args, proper; cbn [p_diso p_contig p_10 p_bal_ipo p_oopo p_weight]. rewrite map_length. tauto. }
  rewrite E. intros X; injection X as <-. rewrite R. unfold penalised_objective. apply sum_to_ext. intros i Hi.
  unfold panel_value, pen; cbn [p_diso p_contig p_10 p_bal_ipo p_oopo p_weight c_diso c_contig c_10 c_bal_ipo c_oopo c_weight].
  rewrite (nth_map' _ panels i panel0) by auto. rewrite O by auto. ring.
Qed.

Lemma evaluate_spec d e : In d designs -> evaluate c panels lampam pen10 targets weights panel_weightings coeffs repair d = Ok e ->
  repaired_to c panels repair d (e_rep e) /\ valued c panels lampam pen10 targets weights panel_weightings coeffs (e_rep e) (e_total e) /\
  e_lps e = map lampam (x_ss (e_rep e)) /\
  (x_done (e_rep e) = true -> forall i, (i < length panels)%nat -> (nth i (e_obj e) 0 == panel_objective lampam targets weights (x_ss (e_rep e)) i)%Q) /\
  (x_done (e_rep e) = false -> e_obj e = repeat huge (length panels)) /\
  (x_done (e_rep e) = true -> (forall i, (i < length panels)%nat -> ~ (panel_objective lampam targets weights (x_ss (e_rep e)) i == 10000000000)%Q) ->
    forall pd pc pt, penalties_of c panels pen10 (x_ss (e_rep e)) (e_lps e) = Ok (pd, pc, pt) ->
      (e_total e == penalised_objective panels lampam targets weights panel_weightings coeffs (x_ss (e_rep e)) pd pc pt)%Q).
Proof.
  intros Hd. unfold evaluate.
  destruct (full_stacks c panels d) as [stack|] eqn:E1; cbn [bind]; [|discriminate].
  destruct (repair stack) as [r|] eqn:E2; cbn [bind]; [|discriminate].
  destruct (penalties_of _ _ _ _ _) as [[[pd pc] pt]|] eqn:E3; cbn [bind]; [|discriminate].
  match goal with |- (do obj <- ?X; _) = _ -> _ => destruct X as [obj|] eqn:E4 end; cbn [bind]; [|discriminate].
  match goal with |- (do total <- ?X; _) = _ -> _ => destruct X as [q|] eqn:E5 end; cbn [bind]; [|discriminate].
  intros X; injection X as <-. cbn [e_rep e_total e_lps e_obj].
  assert (R : repaired_to c panels repair d r) by (exists stack; split; [apply full_stacks_joined; auto|exact E2]). split; [exact R|].
  assert (F : x_done r = false -> obj = repeat huge (length panels) /\ q = huge).
  { intros D. rewrite D in E4. injection E4 as <-. assert (map (fun _ : fpanel => huge) panels = repeat huge (length panels)) as Y.
    { clear. induction panels; cbn; congruence. }
    split; [exact Y|]. pose proof (n_panels _ _ _ _ _ _ _ I) as N. destruct panels as [|p ps]; [congruence|]. cbn [map forallb] in E5.
    change (Qeq_bool huge huge) with true in E5. cbn [negb andb] in E5. congruence. }
  assert (T : x_done r = true -> length (x_ss r) = length panels /\ (length obj = length panels /\ forall i, (i < length panels)%nat -> (nth i obj 0 == panel_objective lampam targets weights (x_ss r) i)%Q) /\
    length pd = length panels /\ length pc = length panels /\ length pt = length panels /\ penalised c panels lampam pen10 (x_ss r) pd pc pt).
  { intros D. rewrite D in E4. destruct (n_repair _ _ _ _ _ _ _ I _ _ Hd R D) as [L S']. split; [exact L|]. split; [apply each_panel_spec; auto|].
    apply penalties_of_spec; auto; [apply Forall_forall; intros s Hs; apply S', Hs|intros s Hs; apply S', Hs]. }
  assert (W : x_done r = true -> (forall i, (i < length panels)%nat -> ~ (panel_objective lampam targets weights (x_ss r) i == 10000000000)%Q) ->
    (q == penalised_objective panels lampam targets weights panel_weightings coeffs (x_ss r) pd pc pt)%Q).
  { intros D Z0. destruct (T D) as (L & [Lo O] & L1 & L2 & L3 & P).
    assert (forallb (fun x => negb (Qeq_bool x huge)) obj = true) as Y.
    { apply forallb_forall. intros x Hx. apply (In_nth _ _ 0%Q) in Hx. destruct Hx as [i [Hi <-]]. apply negb_true_iff, not_true_is_false. intros Y.
      apply Qeq_bool_iff in Y. apply (Z0 i ltac:(lia)). rewrite <- (O i) by lia. exact Y. }
    rewrite Y in E5. apply (with_penalties_spec (x_ss r) obj); auto. }
  split; [|split; [reflexivity|split; [intros D; apply T, D|split; [intros D; apply F, D|intros D Z0 pd' pc' pt' X; rewrite E3 in X; injection X as <- <- <-; auto]]]].
  split; [|split].
  - intros D. destruct (F D) as [_ ->]. reflexivity.
  - intros D [i [Hi Z0]]. destruct (T D) as (L & [Lo O] & _). assert (forallb (fun x => negb (Qeq_bool x huge)) obj = false) as Y.
    { apply not_true_is_false. intros Y. rewrite forallb_forall in Y. specialize (Y (nth i obj 0%Q) ltac:(apply nth_In; lia)).
      apply negb_true_iff in Y. assert (Qeq_bool (nth i obj 0%Q) huge = true); [|congruence]. apply Qeq_bool_iff. rewrite (O i Hi). exact Z0. }
    rewrite Y in E5. injection E5 as <-. reflexivity.
  - intros D Z0. destruct (T D) as (L & [Lo O] & L1 & L2 & L3 & P). exists pd, pc, pt. split; auto.
Qed.

Lemma all_spec ds all : incl ds designs ->
  Forall2 (fun d e => evaluate c panels lampam pen10 targets weights panel_weightings coeffs repair d = Ok e) ds all ->
  Forall2 (fun d e => repaired_to c panels repair d (e_rep e) /\ valued c panels lampam pen10 targets weights panel_weightings coeffs (e_rep e) (e_total e)) ds all.
Proof.
  intros B F. induction F as [|d e ds all H F IH]; [constructor|]. constructor; [|apply IH; intros y Hy; apply B; right; auto].
  apply evaluate_spec in H; [tauto|apply B; left; auto].
Qed.

Definition done_or (P : repaired -> bool) (rs : list repaired) : nat := length (filter (fun r => (x_done r || P r)%bool) rs).
(** numbers of designs: all, with a repaired reference panel, with repaired thinner panels, repaired *)
Definition tally_of (rs : list repaired) (k : tally) : Prop :=
  k_last k = length rs /\
  k_ref k = done_or (fun r => negb (x_stage r =? 1)%nat) rs /\
  k_thin k = done_or (fun r => negb ((x_stage r =? 1)%nat || (x_stage r =? 2)%nat)) rs /\
  k_thick k = done_or (fun _ => false) rs.
Lemma tally_spec all k0 rs0 : tally_of rs0 k0 -> tally_of (rs0 ++ map e_rep all) (fold_left (fun k e => count_design (e_rep e) k) all k0).
Proof.
  revert k0 rs0. induction all as [|e all IH]; intros k0 rs0 H; cbn [map fold_left]; [rewrite app_nil_r; exact H|].
  replace (rs0 ++ e_rep e :: map e_rep all) with ((rs0 ++ [e_rep e]) ++ map e_rep all) by (rewrite <- app_assoc; reflexivity).
  apply IH. destruct H as (H1 & H2 & H3 & H4). unfold tally_of, done_or in *. rewrite app_length, !filter_app, !app_length. cbn [filter length].
  unfold count_design. destruct (x_done (e_rep e)); cbn [orb negb length k_last k_ref k_thin k_thick]; [repeat split; lia|].
  destruct (x_stage (e_rep e) =? 1)%nat; cbn [orb negb length k_last k_ref k_thin k_thick]; [repeat split; lia|].
  destruct (x_stage (e_rep e) =? 2)%nat; cbn [orb negb length k_last k_ref k_thin k_thick]; repeat split; lia.
Qed.

(** the report [o] is that of the repaired design [r] *)
Definition reports (o : report) (r : repaired) : Prop :=
  o_ss o = x_ss r /\ o_sst o = x_sst r /\ o_pdl o = x_pdl r /\ o_lps o = map lampam (x_ss r) /\
  (forall i s p, nth_error (x_ss r) i = Some s -> nth_error panels i = Some p -> zlen s = f_plies p) /\
  (forall i, (i < length (x_ss r))%nat -> let l := lampam (nth i (x_ss r) []) in (nth i (o_ipo o) 0 == (Qabs (nth 2 l 0) + Qabs (nth 3 l 0)) / 2)%Q) /\
  (x_done r = true ->
    (forall i, (i < length panels)%nat -> (nth i (o_obj o) 0 == panel_objective lampam targets weights (x_ss r) i)%Q) /\
    exists pd pc pt, o_pens o = (pd, pc, pt) /\ penalised c panels lampam pen10 (x_ss r) pd pc pt /\
      ((forall i, (i < length panels)%nat -> ~ (nth i (o_obj o) 0 == 10000000000)%Q) ->
        (o_total o == penalised_objective panels lampam targets weights panel_weightings coeffs (x_ss r) pd pc pt)%Q)).

Definition chosen (o : report) : Prop :=
  exists rs values k r,
    Forall2 (repaired_to c panels repair) designs rs /\
    Forall2 (valued c panels lampam pen10 targets weights panel_weightings coeffs) rs values /\
    first_min values k /\ nth_error rs k = Some r /\ o_total o = nth k values 0%Q /\ reports o r /\ tally_of rs (o_counts o).

Lemma select_chosen all o k : Forall2 (fun d e => evaluate c panels lampam pen10 targets weights panel_weightings coeffs repair d = Ok e) designs all ->
  tally_of (map e_rep all) k ->
  select c panels lampam pen10 targets weights panel_weightings coeffs false all k = Ok (Some o) -> chosen o.
Proof.
  intros F T. unfold select. destruct all as [|e0 all0] eqn:Eall; [discriminate|]. rewrite <- Eall in *. clear Eall e0 all0.
  destruct (argmin (map e_total all)) as [i|] eqn:E1; cbn [bind]; [|discriminate].
  unfold row. destruct (nth_error all i) as [e|] eqn:E2; cbn [bind]; [|discriminate].
  destruct (mapM _ _) as [us|] eqn:E3; cbn [bind]; [|discriminate].
  unfold guard at 1. destruct (all_differ _ _); cbn [bind]; [discriminate|].
  destruct (each_panel _ _ _) as [obj|] eqn:E4; cbn [bind]; [|discriminate].
  unfold guard at 1. destruct (existsb _ _); cbn [bind]; [discriminate|].
  destruct (penalties_of _ _ _ _ _) as [[[pd pc] pt]|] eqn:E5; cbn [bind]; [|discriminate].
  destruct (with_penalties _ _ _ _ _) as [q|] eqn:E6; cbn [bind]; [|discriminate].
  unfold guard at 1. destruct (exceeds q (e_total e)) eqn:E7; cbn [bind]; [discriminate|].
  destruct (calc_penalty_ipo_rows _ _) as [ipo|] eqn:E8; cbn [bind]; [|discriminate].
  intros X; injection X as <-.
  assert (S' : forall j e', nth_error all j = Some e' -> exists d, In d designs /\ evaluate c panels lampam pen10 targets weights panel_weightings coeffs repair d = Ok e').
  { clear -F. intros j e' Hj. revert j Hj. induction F; intros [|j] Hj; cbn in Hj; try discriminate; [injection Hj as <-; exists x; split; [left; auto|auto]|].
    destruct (IHF _ Hj) as [d [D1 D2]]. exists d. split; [right; auto|auto]. }
  destruct (S' _ _ E2) as [d [Hd Ed]]. apply evaluate_spec in Ed; [|exact Hd]. destruct Ed as (R & V & L & O & _ & U).
  exists (map e_rep all), (map e_total all), i, (e_rep e).
  assert (G : Forall2 (fun d e => repaired_to c panels repair d (e_rep e) /\ valued c panels lampam pen10 targets weights panel_weightings coeffs (e_rep e) (e_total e)) designs all).
  { apply all_spec; auto using incl_refl. }
  split. { clear -G. induction G; [constructor|cbn [map]; constructor; tauto]. }
  split. { clear -G. induction G; [constructor|cbn [map]; constructor; tauto]. }
  split; [apply argmin_first, E1|]. split; [rewrite nth_error_map, E2; reflexivity|]. cbn [o_total o_counts].
  split. { symmetry. apply nth_error_nth with (d := 0%Q) (n := i). rewrite nth_error_map, E2. reflexivity. } split; [|exact T].
  unfold reports; cbn [o_ss o_sst o_pdl o_lps o_ipo o_obj o_pens o_total]. split; [reflexivity|]. split; [reflexivity|]. split; [reflexivity|]. split; [exact L|].
  split. { intros j s p Hs Hp. apply mapM_inv in E3. clear -E3 Hs Hp. revert panels j us Hs Hp E3. induction (x_ss (e_rep e)) as [|t ss IH]; intros ps [|j] l Hs Hp E3; cbn in Hs; try discriminate.
    - destruct ps as [|p' ps]; cbn in Hp; [discriminate|]. injection Hs as ->. injection Hp as ->. cbn in E3. inversion E3 as [|? ? ? ? G]; subst.
      unfold guard in G; cbn [fst snd] in G. destruct (Z.eqb_spec (zlen s) (f_plies p)); [auto|discriminate].
    - destruct ps as [|p' ps]; cbn in Hp; [discriminate|]. cbn in E3. inversion E3; subst. eapply IH; eauto. }
  split. { intros j Hj. rewrite L in E8. apply C62_ipo_rows in E8. destruct E8 as [L8 A8]. rewrite map_length in L8.
    specialize (A8 j (lampam (nth j (x_ss (e_rep e)) [])) (nth j ipo 0%Q)). rewrite nth_error_map, (nth_error_nth' _ [] Hj) in A8. specialize (A8 eq_refl).
    rewrite (nth_error_nth' _ 0%Q) in A8 by lia. specialize (A8 eq_refl). unfold calc_penalty_ipo in A8.
    destruct (half_sum _ _ _) as [h|] eqn:Eh; cbn [bind] in A8; [|discriminate]. injection A8 as A8. apply half_sum_iff in Eh. destruct Eh as (_ & _ & ->). rewrite <- A8. ring. }
  intros D. destruct (n_repair _ _ _ _ _ _ _ I _ _ Hd R D) as [Ls Hs]. rewrite L in E5.
  assert (P : length pd = length panels /\ length pc = length panels /\ length pt = length panels /\ penalised c panels lampam pen10 (x_ss (e_rep e)) pd pc pt).
  { apply penalties_of_spec; auto; [apply Forall_forall; intros s Hs'; apply Hs, Hs'|intros s Hs'; apply Hs, Hs']. }
  destruct P as (L1 & L2 & L3 & P). split; [exact (O D)|]. exists pd, pc, pt. split; [reflexivity|]. split; [exact P|]. intros Z0.
  apply U; auto; [|rewrite L; exact E5]. intros j Hj. rewrite <- (O D j Hj). auto.
Qed.
End Proofs.

(* ------------------------------------------------------------------ *)
(** ** C64 *)
Definition tally0 : tally := {| k_last := 0; k_ref := 0; k_thin := 0; k_thick := 0 |}.

(** the reported design is the first of those with the least value, and the report is entirely its own *)
Theorem C64_selected : forall c panels lampam pen10 targets weights panel_weightings coeffs repair designs o,
  inputs c panels targets weights panel_weightings repair designs ->
  finish c panels lampam pen10 targets weights panel_weightings coeffs repair false designs = Ok (Some o) ->
  chosen c panels lampam pen10 targets weights panel_weightings coeffs repair designs o.
Proof.
  intros c panels lampam pen10 targets weights pw coeffs repair designs o I. unfold finish.
  destruct (mapM _ designs) as [all|] eqn:E; cbn [bind]; [|discriminate]. apply mapM_inv in E. intros H.
  eapply (select_chosen c panels lampam pen10 targets weights pw coeffs repair designs I all); [exact E| |exact H].
  apply (tally_spec all tally0 []). repeat split.
Qed.
Print Assumptions C64_selected.

(** same with save_success_rate when all the designs have a value below 1e10 *)
Theorem C64_success_rate_partial : forall c panels lampam pen10 targets weights panel_weightings coeffs repair designs o,
  inputs c panels targets weights panel_weightings repair designs ->
  (forall d r q, In d designs -> repaired_to c panels repair d r -> valued c panels lampam pen10 targets weights panel_weightings coeffs r q -> (q < 10000000000)%Q) ->
  finish c panels lampam pen10 targets weights panel_weightings coeffs repair true designs = Ok (Some o) ->
  chosen c panels lampam pen10 targets weights panel_weightings coeffs repair designs o.
Proof.
  intros c panels lampam pen10 targets weights pw coeffs repair designs o I A. unfold finish.
  destruct (mapM _ designs) as [all|] eqn:E; cbn [bind]; [|discriminate]. apply mapM_inv in E. intros H.
  eapply (select_chosen c panels lampam pen10 targets weights pw coeffs repair designs I all); [exact E| |].
  { apply (tally_spec all tally0 []). repeat split. }
  rewrite <- H. unfold select. replace (filter (fun e => Qltb (e_total e) huge) all) with all; [reflexivity|].
  clear H. apply (all_spec c panels lampam pen10 targets weights pw coeffs repair designs I designs all (incl_refl _)) in E. clear I.
  induction E as [|d e designs all [R V] F IH]; [reflexivity|]. cbn [filter]. pose proof (A d _ _ ltac:(left; reflexivity) R V) as B.
  assert (Qltb (e_total e) huge = true) as ->. { unfold Qltb. apply negb_true_iff, not_true_is_false. intros X. apply Qle_bool_iff in X. unfold huge in X. lra. }
  f_equal. apply IH. intros d' r q Hd'. apply A. right; auto.
Qed.
Print Assumptions C64_success_rate_partial.

(** a value below 1e10 belongs to a repaired design; and if a design can be repaired with a value
    below 1e10, then the reported one is repaired *)
Theorem C64_repaired : forall c panels lampam pen10 targets weights panel_weightings coeffs repair designs o,
  inputs c panels targets weights panel_weightings repair designs ->
  finish c panels lampam pen10 targets weights panel_weightings coeffs repair false designs = Ok (Some o) ->
  exists d r, In d designs /\ repaired_to c panels repair d r /\ reports c panels lampam pen10 targets weights panel_weightings coeffs o r /\
    ((o_total o < 10000000000)%Q -> x_done r = true) /\
    ((exists d', In d' designs /\ forall r', repaired_to c panels repair d' r' ->
        forall q, valued c panels lampam pen10 targets weights panel_weightings coeffs r' q -> (q < 10000000000)%Q) -> (o_total o < 10000000000)%Q).
Proof.
  intros c panels lampam pen10 targets weights pw coeffs repair designs o I H. apply C64_selected in H; auto.
  destruct H as (rs & values & k & r & R & V & M & N & T & P & _).
  assert (Kr : (k < length rs)%nat) by (apply nth_error_Some; congruence). pose proof (F2_length _ _ _ R) as L1. pose proof (F2_length _ _ _ V) as L2.
  exists (nth k designs []), r. split; [apply nth_In; lia|].
  assert (nth k rs r = r) as Er by (apply nth_error_nth; auto).
  split; [rewrite <- Er; apply (Forall2_nth' _ _ _ [] r R); lia|]. split; [exact P|]. split.
  - intros B. apply not_false_is_true. intros D. pose proof (Forall2_nth' _ _ _ r 0%Q V k ltac:(lia)) as [V1 _]. rewrite Er in V1. specialize (V1 D). rewrite T in B. lra.
  - intros [d' [D1 D2]]. apply (In_nth _ _ []) in D1. destruct D1 as [j [Hj <-]].
    pose proof (D2 _ (Forall2_nth' _ _ _ [] r R j Hj) _ (Forall2_nth' _ _ _ r 0%Q V j ltac:(lia))) as B.
    destruct M as (_ & _ & M). specialize (M j ltac:(lia)). rewrite T. lra.
Qed.
Print Assumptions C64_repaired.

(** no design is reported only if there is none, or, with save_success_rate, if none has a value below 1e10 *)
Theorem C64_none : forall c panels lampam pen10 targets weights panel_weightings coeffs repair designs,
  finish c panels lampam pen10 targets weights panel_weightings coeffs repair false designs = Ok None <-> designs = [].
Proof.
  intros. unfold finish. split.
  - destruct (mapM _ designs) as [all|] eqn:E; cbn [bind]; [|discriminate]. apply mapM_len in E. unfold select.
    destruct all as [|e0 all0]; [destruct designs; [reflexivity|discriminate]|]. intros H. exfalso. revert H.
    repeat match goal with |- (do x <- ?X; _) = _ -> _ => destruct X; cbn [bind]; [|discriminate] end. discriminate.
  - intros ->. reflexivity.
Qed.
Print Assumptions C64_none.
Theorem C64_none_success_rate : forall c panels lampam pen10 targets weights panel_weightings coeffs repair designs,
  inputs c panels targets weights panel_weightings repair designs ->
  finish c panels lampam pen10 targets weights panel_weightings coeffs repair true designs = Ok None ->
  exists rs values, Forall2 (repaired_to c panels repair) designs rs /\ Forall2 (valued c panels lampam pen10 targets weights panel_weightings coeffs) rs values /\
    Forall (fun q => 10000000000 <= q)%Q values.
Proof.
  intros c panels lampam pen10 targets weights pw coeffs repair designs I. unfold finish.
  destruct (mapM _ designs) as [all|] eqn:E; cbn [bind]; [|discriminate]. apply mapM_inv in E. unfold select.
  destruct (filter _ all) as [|e0 all0] eqn:F.
  - intros _. apply (all_spec c panels lampam pen10 targets weights pw coeffs repair designs I designs all (incl_refl _)) in E. exists (map e_rep all), (map e_total all). split; [|split].
    + clear -E. induction E; [constructor|cbn [map]; constructor; tauto].
    + clear -E. induction E; [constructor|cbn [map]; constructor; tauto].
    + apply Forall_forall. intros q Hq. apply in_map_iff in Hq. destruct Hq as [e [<- He]]. apply Qnot_lt_le. intros B.
      assert (In e (filter (fun e => Qltb (e_total e) huge) all)) as X; [|rewrite F in X; destruct X].
      apply filter_In. split; auto. unfold Qltb. apply negb_true_iff, not_true_is_false. intros X. apply Qle_bool_iff in X. unfold huge in X. lra.
  - intros H. exfalso. revert H.
    repeat match goal with |- (do x <- ?X; _) = _ -> _ => destruct X; cbn [bind]; [|discriminate] end. discriminate.
Qed.
Print Assumptions C64_none_success_rate.

(* ---------------- a structure of two panels, of 4 and 7 plies ---------------- *)
Definition two_panels : list fpanel := [{| f_plies := 4; f_middle := false; f_middle_index := 0 |}; {| f_plies := 7; f_middle := true; f_middle_index := 4 |}].
Definition share (a : Z) (s : list Z) : Q := inject_Z (count a s) / inject_Z (zlen s).
Definition lampam_2 (s : list Z) : list Q := [share 0 s; share 90 s; 0; 0]%Q.
Definition fine (s : list Z) : bool := (negb (zlen s =? 0) && forallb (fun x => memb x [0; 45; 90; -45]) s)%bool.
(** nothing is changed; fails when the first panel starts with a 90 deg ply *)
Definition repair_2 (stacks : list (list Z)) : result repaired :=
  Ok {| x_done := ((length stacks =? 2)%nat && forallb fine stacks && negb (nth 0 (nth 0 stacks []) 0 =? 90))%bool;
        x_ss := stacks; x_sst := stacks; x_pdl := stacks; x_stage := 1 |}.
Definition coeffs_2 : coefficients := {| c_diso := 1; c_contig := 1; c_10 := 0; c_bal_ipo := 0; c_oopo := 0; c_weight := 0 |}%Q.
Definition run_2 (c : cons) := finish c two_panels lampam_2 (fun _ _ => Ok 0%Q) [[1 # 2; 0; 0; 0]; [1 # 2; 0; 0; 0]]%Q [[1; 0; 0; 0]; [1; 0; 0; 0]]%Q [1 # 2; 1 # 2]%Q coeffs_2 repair_2.

Lemma inputs_2 c designs : mk_cons (args_rd true false true 1 2) = Ok c -> inputs c two_panels [[1 # 2; 0; 0; 0]; [1 # 2; 0; 0; 0]]%Q [[1; 0; 0; 0]; [1; 0; 0; 0]]%Q [1 # 2; 1 # 2]%Q repair_2 designs.
Proof.
  intros Ec. vm_compute in Ec. injection Ec as <-. constructor; try reflexivity.
  - discriminate.
  - repeat constructor; discriminate.
  - intros _. cbn. split; [lia|reflexivity].
  - intros p [<-|[<-|[]]]; cbn; [discriminate|reflexivity].
  - unfold repair_2. intros d r _ [stacks [_ X]]. injection X as <-. cbn [x_done x_ss]. intros D.
    apply andb_true_iff in D. destruct D as [D _]. apply andb_true_iff in D. destruct D as [D1 D2].
    split; [apply Nat.eqb_eq, D1|]. intros s Hs. rewrite forallb_forall in D2. specialize (D2 s Hs). unfold fine in D2. apply andb_true_iff in D2. destruct D2 as [D2 D3].
    split.
    + apply Forall_forall. intros x Hx. rewrite forallb_forall in D3. specialize (D3 x Hx). apply memb_true in D3. unfold angle_ok. cbn in D3. intuition lia.
    + intros C. apply covered_trim in C. unfold dt_trim in C. cbn [dam_tol andb] in C. subst s. discriminate.
Qed.

Definition design_a : list (list Z * list Z) := [([0; 45], []); ([0; 45; 90; 45], [])].
Definition design_b : list (list Z * list Z) := [([90; 45], []); ([90; 45; 0; 45], [])].
Definition design_c : list (list Z * list Z) := [([0; 0], []); ([0; 0; 0; 0], [])].
Definition design_d : list (list Z * list Z) := [([90; 0], []); ([90; 0; 0; 45], [])].

(** hypotheses of [C64_selected], [C64_repaired] *)
Example C64_example : exists c o, mk_cons (args_rd true false true 1 2) = Ok c /\
  inputs c two_panels [[1 # 2; 0; 0; 0]; [1 # 2; 0; 0; 0]]%Q [[1; 0; 0; 0]; [1; 0; 0; 0]]%Q [1 # 2; 1 # 2]%Q repair_2 [design_c; design_b; design_a] /\
  run_2 c false [design_c; design_b; design_a] = Ok (Some o) /\ o_ss o = [[0; 45; 45; 0]; [0; 45; 90; 45; 90; 45; 0]] /\ (o_total o < 1)%Q /\
  o_counts o = {| k_last := 3; k_ref := 2; k_thin := 2; k_thick := 2 |}.
Proof.
  destruct (mk_cons (args_rd true false true 1 2)) as [c|] eqn:E; [|vm_compute in E; discriminate]. exists c. eexists. split; [reflexivity|]. split; [apply inputs_2, E|].
  vm_compute in E; injection E as <-. split; [vm_compute; reflexivity|]. split; [reflexivity|]. split; reflexivity.
Qed.
Example C64_success_rate_example : exists c o, mk_cons (args_rd true false true 1 2) = Ok c /\
  (forall d r q, In d [design_c; design_a] -> repaired_to c two_panels repair_2 d r ->
     valued c two_panels lampam_2 (fun _ _ => Ok 0%Q) [[1 # 2; 0; 0; 0]; [1 # 2; 0; 0; 0]]%Q [[1; 0; 0; 0]; [1; 0; 0; 0]]%Q [1 # 2; 1 # 2]%Q coeffs_2 r q -> x_done r = true) /\
  run_2 c true [design_c; design_a] = Ok (Some o) /\ o_ss o = [[0; 45; 45; 0]; [0; 45; 90; 45; 90; 45; 0]].
Proof.
  destruct (mk_cons (args_rd true false true 1 2)) as [c|] eqn:E; [|vm_compute in E; discriminate]. exists c. eexists. split; [reflexivity|].
  vm_compute in E; injection E as <-. split; [|split; [vm_compute; reflexivity|reflexivity]].
  intros d r q Hd [stacks [F R]] _. injection R as <-. cbn [x_done].
  destruct Hd as [<-|[<-|[]]]; cbn [List.combine two_panels design_c design_a] in F;
    (inversion F as [|? ? ? ? J1 F1]; subst; inversion F1 as [|? ? ? ? J2 F2]; subst; inversion F2; subst;
     destruct J1 as (_ & _ & J1 & _); destruct J2 as (_ & _ & _ & J2); cbn [fst snd f_middle sym] in J1, J2; rewrite (J1 eq_refl eq_refl);
     destruct (J2 eq_refl eq_refl) as (u & m & U & ->);
     repeat (destruct u as [|? u]; [discriminate U|]; injection U as <- U); destruct u as [|? [|? u]]; try discriminate U; injection U as <-; reflexivity).
Qed.

(** with save_success_rate the reported stacks may be those of a design that could not be
    repaired, next to the objective and table of another one *)
Theorem C64_success_rate_refuted : exists c o,
  mk_cons (args_rd true false true 1 2) = Ok c /\ run_2 c true [design_b; design_a] = Ok (Some o) /\ (o_total o < 1)%Q /\
  (o_sst o <> o_ss o) /\
  (forall r, repair_2 (o_ss o) = Ok r -> x_done r = false) /\
  (forall r, repair_2 (o_sst o) = Ok r -> x_done r = true /\ o_lps o = map lampam_2 (x_ss r)) /\ o_lps o <> map lampam_2 (o_ss o).
Proof.
  destruct (mk_cons (args_rd true false true 1 2)) as [c|] eqn:E; [|vm_compute in E; discriminate]. exists c. eexists. split; [reflexivity|].
  vm_compute in E; injection E as <-. split; [vm_compute; reflexivity|]. split; [reflexivity|]. split; [discriminate|].
  split; [intros r X; injection X as <-; reflexivity|]. split; [intros r X; injection X as <-; split; reflexivity|discriminate].
Qed.
Print Assumptions C64_success_rate_refuted.

(** when no design can be repaired the run may end with an exception instead of a report *)
Theorem C64_all_failed_refuted : exists c,
  mk_cons (args_rd true false true 1 2) = Ok c /\
  inputs c two_panels [[1 # 2; 0; 0; 0]; [1 # 2; 0; 0; 0]]%Q [[1; 0; 0; 0]; [1; 0; 0; 0]]%Q [1 # 2; 1 # 2]%Q repair_2 [design_d] /\
  (exists o, run_2 c false [design_b] = Ok (Some o) /\ (o_total o == 10000000000)%Q) /\
  run_2 c false [design_d] = Err (Raised Other).
Proof.
  destruct (mk_cons (args_rd true false true 1 2)) as [c|] eqn:E; [|vm_compute in E; discriminate]. exists c. split; [reflexivity|]. split; [apply inputs_2, E|].
  vm_compute in E; injection E as <-. split; [eexists; split; [vm_compute; reflexivity|reflexivity]|]. vm_compute. reflexivity.
Qed.
Print Assumptions C64_all_failed_refuted.

(* ---------------- with the repair of RELAY ---------------- *)

(** a reported design with an objective below 1e10 has the properties of a repaired design (C57) *)
Theorem C64_repaired_design : forall a c st cos_sin lampam4 distA targets4 weights4 weightsA weightsD pw plies ref p pdl
    panels lampam pen10 targets weights panel_weightings coeffs designs o,
  let repair ss := packed (repair_mp c st cos_sin lampam4 distA targets4 weights4 weightsA weightsD pw plies ref p pdl ss) in
  mk_cons a = Ok c -> ~ In dropped (set_of_angles c) -> objective_bounded cos_sin targets4 weightsD ref ->
  inputs c panels targets weights panel_weightings repair designs ->
  (forall d stacks, In d designs -> Forall2 (fun pp s => joined c (fst pp) (snd pp) s) (List.combine panels d) stacks -> repairable c plies ref pdl stacks) ->
  finish c panels lampam pen10 targets weights panel_weightings coeffs repair false designs = Ok (Some o) ->
  (o_total o < 10000000000)%Q ->
  length (o_sst o) = length plies /\ blended (o_sst o) /\
  (forall j, (j < length plies)%nat -> nth j (o_ss o) [] = plies_of (nth j (o_sst o) []) /\ zlen (nth j (o_ss o) []) = nth j plies 0 /\ (sym c = true -> palindrome (nth j (o_ss o) []))) /\
  (forall j, (S j < length plies)%nat -> sublist (nth j (o_ss o) []) (nth (S j) (o_ss o) [])) /\
  check_lay_up_rules (fun s => (nth 2 (lampam4 s) 0%Q, nth 3 (lampam4 s) 0%Q)) (nth ref (o_ss o) []) c false false false false None = Ok tt /\
  (forall j, (j < length plies)%nat -> j <> ref -> enforced c lampam4 (fun l => distA (fun i => nth i l 0%Q)) (nth j (o_ss o) []) /\ nearly_as_balanced c (nth j (o_ss o) []) (nth ref (o_ss o) [])).
Proof.
  intros a c st cos_sin lampam4 distA targets4 weights4 weightsA weightsD pw plies ref p pdl panels lampam pen10 targets weights panel_weightings coeffs designs o repair
    Ha Hset Hobj I J H B.
  apply C64_repaired in H; auto. destruct H as (d & r & Hd & [stacks [F R]] & P & D & _). specialize (D B). specialize (J d stacks Hd F).
  unfold repair, packed in R. destruct (repair_mp _ _ _ _ _ _ _ _ _ _ _ _ _ _ _) as [[[[[d' ss] sst] pdl'] stage]|] eqn:E; cbn [bind] in R; [|discriminate].
  injection R as <-. cbn [x_done] in D. subst d'. destruct P as (-> & -> & _). cbn [x_ss x_sst].
  destruct (C57_repaired_design _ _ _ _ _ _ _ _ _ _ _ _ _ _ _ _ _ _ _ _ Ha Hset J Hobj E) as (_ & L & Bl & A1 & A2 & A3 & A4). cbv zeta in A3.
  split; [exact L|]. split; [exact Bl|]. split; [intros j Hj; specialize (A1 j Hj); tauto|]. split; [exact A2|]. split; [tauto|]. exact A4.
Qed.
Print Assumptions C64_repaired_design.

Definition strip_3 : list fpanel := map (fun n => {| f_plies := n; f_middle := false; f_middle_index := 0 |}) [8; 12; 16].
Definition halves_3 : list (list Z * list Z) := map (fun s => (firstn (length s / 2) s, [])) (map plies_of three_panels).
(** hypotheses of [C64_repaired_design]: one design, repaired by RELAY *)
Example C64_repaired_design_example : exists c o, let repair ss := packed (mp_run c true [8; 12; 16] 1 three_panels ss) in
  mk_cons (args_re true true true) = Ok c /\ ~ In dropped (set_of_angles c) /\
  objective_bounded cos_sin_4 (all [0; 0; 0; 0]%Q [8; 12; 16]) (all [1; 1; 1; 1]%Q [8; 12; 16]) 1 /\
  inputs c strip_3 (all [0; 0; 0; 0]%Q [8; 12; 16]) (all [1; 1; 1; 1]%Q [8; 12; 16]) (all (1 # 3)%Q [8; 12; 16]) repair [halves_3] /\
  (forall d stacks, In d [halves_3] -> Forall2 (fun pp s => joined c (fst pp) (snd pp) s) (List.combine strip_3 d) stacks -> repairable c [8; 12; 16] 1 three_panels stacks) /\
  finish c strip_3 lp_4 (fun _ _ => Ok 0%Q) (all [0; 0; 0; 0]%Q [8; 12; 16]) (all [1; 1; 1; 1]%Q [8; 12; 16]) (all (1 # 3)%Q [8; 12; 16]) coeffs_2 repair false [halves_3] = Ok (Some o) /\
  nth 1 (o_ss o) [] = [45; 90; 0; -45; 0; 90; 90; 0; -45; 0; 90; 45] /\ (o_total o < 1)%Q.
Proof.
  destruct (mk_cons (args_re true true true)) as [c|] eqn:E; [|vm_compute in E; discriminate]. exists c.
  assert (Y : sym c = true) by (vm_compute in E; injection E as <-; reflexivity).
  assert (J : forall d stacks, In d [halves_3] -> Forall2 (fun pp s => joined c (fst pp) (snd pp) s) (List.combine strip_3 d) stacks -> stacks = map plies_of three_panels).
  { intros d stacks [<-|[]] F. cbn [List.combine strip_3 halves_3 map] in F. inversion F as [|? ? ? ? J1 F1]; subst. inversion F1 as [|? ? ? ? J2 F2]; subst.
    inversion F2 as [|? ? ? ? J3 F3]; subst. inversion F3; subst. destruct J1 as (_ & _ & J1 & _), J2 as (_ & _ & J2 & _), J3 as (_ & _ & J3 & _).
    cbn [fst snd f_middle] in J1, J2, J3. rewrite (J1 Y eq_refl), (J2 Y eq_refl), (J3 Y eq_refl). vm_compute. reflexivity. }
  eexists. cbv zeta. split; [reflexivity|]. split; [vm_compute in E; injection E as <-; cbn; intuition discriminate|]. split; [apply bounded_here; cbn; lia|].
  split.
  { constructor; try reflexivity.
    - discriminate.
    - repeat constructor; discriminate.
    - intros _. vm_compute in E; injection E as <-. cbn. split; [lia|reflexivity].
    - intros p [<-|[<-|[<-|[]]]]; discriminate.
    - intros d r Hd [stacks [F R]] D. rewrite (J d stacks Hd F) in R. clear J. vm_compute in E; injection E as <-. vm_compute in R. injection R as <-. cbn [x_ss]. split; [reflexivity|].
      intros s Hs. split.
      + apply Forall_forall. intros x Hx. unfold angle_ok. destruct Hs as [<-|[<-|[<-|[]]]]; cbn in Hx; repeat (destruct Hx as [<-|Hx]; [lia|]); destruct Hx.
      + intros C. apply covered_trim in C. unfold dt_trim in C. cbn [dam_tol andb] in C. subst s. cbn in Hs. intuition discriminate. }
  split. { intros d stacks Hd F. rewrite (J d stacks Hd F). apply three_panels_repairable; [exact Y|]. vm_compute in E; injection E as <-. cbn. intuition. }
  clear J Y. vm_compute in E; injection E as <-. split; [vm_compute; reflexivity|]. split; reflexivity.
Qed.
