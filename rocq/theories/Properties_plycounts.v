(* Properties_plycounts.v - C87: the ply counts and the 10% penalty of the designs *)
From Verif Require Import Base Uniq Constraints ConstraintsProofs Guidelines SpecGuidelines GuidelinesProofs GateProofs Divers DiversProofs Properties_guidelines PlyCounts.
From Coq Require Import Lqa.
Local Open Scope Z_scope.

(** ** Specification: the number of plies of a stack in the direction [a]; -90 and 90 are the
    same direction, listed as 90 *)
Definition plies_at (a : Z) (ss : list Z) : Z := count a ss + (if a =? 90 then count (-90) ss else 0).
(** a ply that the laminate may have *)
Definition allowed (c : cons) (x : Z) : Prop := In x (set_of_angles c) \/ (x = -90 /\ In 90 (set_of_angles c)).

(* ------------------------------------------------------------------ *)
Lemma half_small n : 0 <= n <= 2048 -> half n = n.
Proof.
  intros H; destruct (Z.eq_dec n 2048) as [->|N]; [reflexivity|].
  unfold half. assert (L : Z.log2 n <= 10).
  { destruct (Z.eq_dec n 0) as [->|]; [cbn; lia|]. enough (Z.log2 n < 11) by lia. apply Z.log2_lt_pow2; [lia|]. change (2 ^ 11) with 2048; lia. }
  rewrite Z.max_l by lia. change (2 ^ 0) with 1. rewrite Z.div_1_r, Z.mod_1_r. cbn [Z.mul Z.ltb Z.compare orb]. lia.
Qed.

Lemma half_step k : 0 <= k -> half (Z.min k 2048 + 1) = Z.min (k + 1) 2048.
Proof.
  intros H; destruct (Z.le_gt_cases k 2047) as [L|L].
  - rewrite !Z.min_l by lia. apply half_small; lia.
  - rewrite !Z.min_r by lia. reflexivity.
Qed.

(** plies with the index i *)
Definition at_index (c : cons) (i : nat) (ss : list Z) : Z :=
  zlen (filter (fun x => match ind_angle (set_of_angles c) x with Some j => Nat.eqb j i | None => false end) ss).

Lemma ind_angle_lt c x i : ind_angle (set_of_angles c) x = Some i -> (i < length (set_of_angles c))%nat.
Proof.
  unfold ind_angle; intros E. destruct (_ && _)%bool; apply index_of_some in E; destruct E as [_ [E _]]; apply nth_error_Some; congruence.
Qed.

Lemma tally_ok c : forall ss n k, length n = length (set_of_angles c) -> length k = length n ->
  Forall (fun x => exists i, ind_angle (set_of_angles c) x = Some i) ss ->
  (forall i, (i < length n)%nat -> 0 <= nth i k 0 /\ nth i n 0 = Z.min (nth i k 0) 2048) ->
  exists m, tally c ss n = Ok m /\ length m = length n /\ forall i, (i < length n)%nat -> nth i m 0 = Z.min (nth i k 0 + at_index c i ss) 2048.
Proof.
  induction ss as [|x t IH]; intros n k Ln Lk F H; cbn [tally].
  - exists n; repeat split; auto. intros i Hi; unfold at_index; cbn [filter]. change (zlen []) with 0. rewrite Z.add_0_r. apply H; auto.
  - inversion F as [|? ? [j J] F']; subst. unfold index_or_key; rewrite J; cbn [bind].
    pose proof (ind_angle_lt c x j J) as Hj. rewrite (get_ok n j 0) by lia. cbn [bind].
    destruct (H j ltac:(lia)) as [Hk Hn].
    destruct (IH (upd j (half (nth j n 0 + 1)) n) (upd j (nth j k 0 + 1) k)) as [m [E [Lm N]]]; auto.
    + rewrite upd_length; lia.
    + rewrite !upd_length; lia.
    + rewrite upd_length; intros i Hi. rewrite !nth_upd. destruct (Nat.eqb_spec j i) as [->|Ne]; cbn [andb].
      * assert (B1 : Nat.ltb i (length n) = true) by (apply Nat.ltb_lt; auto). assert (B2 : Nat.ltb i (length k) = true) by (apply Nat.ltb_lt; lia).
        rewrite B1, B2. rewrite Hn. split; [lia|]. apply half_step; auto.
      * apply H; auto.
    + rewrite upd_length in *. exists m; split; [exact E|]; split; [exact Lm|]. intros i Hi. rewrite N by auto. rewrite nth_upd.
      unfold at_index; cbn [filter]; rewrite J. destruct (Nat.eqb_spec j i) as [->|Ne]; cbn [andb].
      * assert (B2 : Nat.ltb i (length k) = true) by (apply Nat.ltb_lt; lia). rewrite B2. unfold zlen; cbn [length]. f_equal; lia.
      * reflexivity.
Qed.

Lemma tally_bad c : forall ss n, length n = length (set_of_angles c) -> (exists x, In x ss /\ ind_angle (set_of_angles c) x = None) -> tally c ss n = Err KeyError.
Proof.
  induction ss as [|x t IH]; intros n Ln [y [I E]]; [destruct I|]. cbn [tally]; unfold index_or_key.
  destruct (ind_angle (set_of_angles c) x) as [j|] eqn:J; [|reflexivity]. cbn [bind].
  pose proof (ind_angle_lt c x j J) as Hj. rewrite (get_ok n j 0) by lia. cbn [bind]. apply IH; [rewrite upd_length; auto|].
  destruct I as [->|I]; [congruence|eauto].
Qed.

Lemma no_minus_90 c : consistent c -> ~ In (-90) (set_of_angles c).
Proof. intros K I; destruct (k_set c K) as (_ & A & _). rewrite Forall_forall in A; specialize (A _ I). unfold angle_ok in A; lia. Qed.

Lemma allowed_index c x : allowed c x -> exists i, ind_angle (set_of_angles c) x = Some i.
Proof.
  unfold ind_angle, allowed. intros [I|[-> I]].
  - destruct ((x =? -90) && memb 90 (set_of_angles c))%bool eqn:E; [|apply index_of_in; auto].
    apply andb_true_iff in E; destruct E as [_ E]; unfold memb in E; apply existsb_exists in E; destruct E as [y [J F]]; apply Z.eqb_eq in F; subst; apply index_of_in; auto.
  - assert (M : memb 90 (set_of_angles c) = true) by (unfold memb; apply existsb_exists; exists 90; split; auto).
    rewrite M; cbn. apply index_of_in; auto.
Qed.
Lemma not_allowed c x : ~ allowed c x -> ind_angle (set_of_angles c) x = None.
Proof.
  intros N; unfold ind_angle. destruct ((x =? -90) && memb 90 (set_of_angles c))%bool eqn:E.
  - exfalso; apply N; right. apply andb_true_iff in E; destruct E as [E1 E]; apply Z.eqb_eq in E1. unfold memb in E; apply existsb_exists in E; destruct E as [y [J F]]; apply Z.eqb_eq in F; subst; auto.
  - apply index_of_none. intros I; apply N; left; auto.
Qed.

Lemma index_spec c i a x : consistent c -> nth_error (set_of_angles c) i = Some a ->
  (ind_angle (set_of_angles c) x = Some i <-> x = a \/ (a = 90 /\ x = -90)).
Proof.
  intros K N. pose proof (no_minus_90 c K) as NM. destruct (k_set c K) as (ND & _).
  assert (Ii : index_of a (set_of_angles c) = Some i) by (apply index_of_nodup; auto).
  assert (Ia : In a (set_of_angles c)) by (eapply nth_error_In; eauto).
  unfold ind_angle. destruct (Z.eqb_spec x (-90)) as [->|Nx]; cbn [andb].
  - destruct (memb 90 (set_of_angles c)) eqn:M.
    + split.
      * intros E. apply index_of_some in E; destruct E as [_ [E _]]. right; split; auto; congruence.
      * intros [<-|[-> _]]; [contradiction|auto].
    + split.
      * intros E. apply index_of_some in E; destruct E as [_ [E _]]. apply nth_error_In in E; contradiction.
      * intros [<-|[-> _]]; [contradiction|]. exfalso. assert (memb 90 (set_of_angles c) = true) by (unfold memb; apply existsb_exists; exists 90; split; auto). congruence.
  - split.
    + intros E. apply index_of_some in E; destruct E as [_ [E _]]. left; congruence.
    + intros [->|[_ ->]]; [auto|congruence].
Qed.

Lemma at_index_plies c i a ss : consistent c -> nth_error (set_of_angles c) i = Some a -> at_index c i ss = plies_at a ss.
Proof.
  intros K N. unfold at_index, plies_at. induction ss as [|x t IH].
  - destruct (a =? 90); reflexivity.
  - cbn [filter]. pose proof (index_spec c i a x K N) as X.
    assert (B : (match ind_angle (set_of_angles c) x with Some j => Nat.eqb j i | None => false end) = true <-> (x = a \/ (a = 90 /\ x = -90))).
    { rewrite <- X. destruct (ind_angle (set_of_angles c) x) as [j|]; [rewrite Nat.eqb_eq; split; congruence|split; discriminate]. }
    rewrite !count_cons.
    destruct (match ind_angle (set_of_angles c) x with Some j => Nat.eqb j i | None => false end).
    + assert (Y := proj1 B eq_refl). unfold zlen in *; cbn [length]. destruct (Z.eqb_spec a 90) as [->|Na];
        destruct (Z.eq_dec x 90), (Z.eq_dec x (-90)); try (destruct (Z.eq_dec x a)); lia.
    + assert (Y : ~ (x = a \/ (a = 90 /\ x = -90))) by (intros Y; apply B in Y; discriminate).
      destruct (Z.eqb_spec a 90) as [->|Na]; destruct (Z.eq_dec x 90), (Z.eq_dec x (-90)); try (destruct (Z.eq_dec x a)); try lia; exfalso; apply Y; auto.
Qed.

(** the counts of one stack *)
Lemma tally_counts c ss : consistent c -> Forall (allowed c) ss ->
  exists m, tally c ss (repeat 0 (length (set_of_angles c))) = Ok m /\ length m = length (set_of_angles c) /\
    forall i a, nth_error (set_of_angles c) i = Some a -> nth i m 0 = Z.min (plies_at a ss) 2048.
Proof.
  intros K F. set (z := repeat 0 (length (set_of_angles c))). assert (Lz : length z = length (set_of_angles c)) by apply repeat_length.
  destruct (tally_ok c ss z z Lz eq_refl) as [m [E [Lm N]]].
  - eapply Forall_impl; [|exact F]. intros x; apply allowed_index.
  - intros i Hi; unfold z; rewrite nth_repeat; split; [lia|reflexivity].
  - exists m; split; [exact E|]; split; [lia|]. intros i a J. assert (Hi : (i < length z)%nat) by (rewrite Lz; apply nth_error_Some; congruence).
    rewrite N by auto. unfold z; rewrite nth_repeat. rewrite (at_index_plies c i a ss K J). f_equal; lia.
Qed.

(** ** C87: the ply counts of the panels, exact up to 2048 plies of a direction *)
Theorem C87_ply_counts_partial : forall args c stacks, mk_cons args = Ok c -> Forall (Forall (allowed c)) stacks ->
  exists m, calc_ply_counts c (length stacks) stacks = Ok m /\ length m = length stacks /\
    forall p i a, (p < length stacks)%nat -> nth_error (set_of_angles c) i = Some a ->
      nth i (nth p m []) 0 = Z.min (plies_at a (nth p stacks [])) 2048.
Proof.
  intros args c stacks MK F. pose proof (mk_cons_consistent args c MK) as K. unfold calc_ply_counts.
  assert (G : forall l, (forall p, In p l -> (p < length stacks)%nat) ->
    exists m, mapM (fun i => do s <- get stacks (Z.of_nat i); tally c s (repeat 0 (length (set_of_angles c)))) l = Ok m /\ length m = length l /\
      forall q i a, (q < length l)%nat -> nth_error (set_of_angles c) i = Some a -> nth i (nth q m []) 0 = Z.min (plies_at a (nth (nth q l 0%nat) stacks [])) 2048).
  { induction l as [|p t IH]; intros H; cbn [mapM].
    - exists []; repeat split; auto. intros q i a Hq; cbn in Hq; lia.
    - rewrite (get_ok stacks p []) by (apply H; left; auto). cbn [bind].
      destruct (tally_counts c (nth p stacks []) K) as [v [E [_ V]]].
      { rewrite Forall_forall in F; apply F, nth_In, H; left; auto. }
      rewrite E; cbn [bind]. destruct IH as [m [Em [Lm M]]]; [intros q Hq; apply H; right; auto|]. rewrite Em; cbn [bind].
      exists (v :: m); split; [reflexivity|]; split; [cbn; lia|]. intros [|q] i a Hq J; cbn [nth]; [apply V; auto|]. apply M; auto; cbn in Hq; lia. }
  destruct (G (seq 0 (length stacks))) as [m [E [L M]]]; [intros p I; apply in_seq in I; lia|]. rewrite seq_length in *.
  exists m; split; [exact E|]; split; [exact L|]. intros p i a Hp J. rewrite (M p i a) by auto. rewrite seq_nth by auto. reflexivity.
Qed.
Print Assumptions C87_ply_counts_partial.

Lemma index_dec c y : {exists i, ind_angle (set_of_angles c) y = Some i} + {~ exists i, ind_angle (set_of_angles c) y = Some i}.
Proof. destruct (ind_angle (set_of_angles c) y) as [i|]; [left; eauto|right; intros [i H]; discriminate]. Qed.
(** a direction that is not allowed is an error *)
Theorem C87_unknown_angle : forall c stacks s x, In s stacks -> In x s -> ~ allowed c x -> calc_ply_counts c (length stacks) stacks = Err KeyError.
Proof.
  intros c stacks s x I J N. unfold calc_ply_counts.
  assert (G : forall l, (forall p, In p l -> (p < length stacks)%nat) -> (exists p, In p l /\ In x (nth p stacks [])) ->
    mapM (fun i => do s <- get stacks (Z.of_nat i); tally c s (repeat 0 (length (set_of_angles c)))) l = Err KeyError).
  { induction l as [|p t IH]; intros H [q [Q X]]; [destruct Q|]. cbn [mapM]. rewrite (get_ok stacks p []) by (apply H; left; auto). cbn [bind].
    destruct (tally c (nth p stacks []) _) as [v|e] eqn:E; cbn [bind].
    - rewrite IH; auto; [intros; apply H; right; auto|]. destruct Q as [<-|Q]; [|eauto]. exfalso.
      rewrite (tally_bad c (nth p stacks [])) in E; [discriminate|apply repeat_length|]. exists x; split; auto; apply not_allowed; auto.
    - destruct (Forall_dec (fun y => exists i, ind_angle (set_of_angles c) y = Some i) (index_dec c) (nth p stacks [])) as [Y|Y].
      + destruct (tally_ok c (nth p stacks []) (repeat 0 (length (set_of_angles c))) (repeat 0 (length (set_of_angles c)))) as [m [Em _]]; auto; try apply repeat_length; [|congruence].
        intros i Hi; rewrite nth_repeat; split; [lia|reflexivity].
      + rewrite (tally_bad c (nth p stacks [])) in E; [injection E as <-; reflexivity|apply repeat_length|].
        clear - Y. induction (nth p stacks []) as [|y t IH]; [exfalso; apply Y; constructor|].
        destruct (ind_angle (set_of_angles c) y) as [i|] eqn:Ey; [|exists y; split; [left; auto|auto]].
        destruct IH as [z [Z1 Z2]]; [intros X; apply Y; constructor; eauto|]. exists z; split; [right; auto|auto]. }
  apply G; [intros p P; apply in_seq in P; lia|]. destruct (In_nth _ _ [] I) as [p [P1 P2]]. exists p; split; [apply in_seq; lia|rewrite P2; auto].
Qed.
Print Assumptions C87_unknown_angle.

(** the counts are not exact beyond 2048 plies *)
Theorem C87_large_counts_refuted : exists c ss m, mk_cons args_full = Ok c /\ Forall (allowed c) ss /\
  calc_ply_counts c 1 [ss] = Ok m /\ nth_error (set_of_angles c) 1 = Some 0 /\ plies_at 0 ss = 2049 /\ nth 1 (nth 0 m []) 0 = 2048.
Proof.
  destruct (mk_cons args_full) as [c|e] eqn:MK; [|vm_compute in MK; discriminate].
  assert (N : nth_error (set_of_angles c) 1 = Some 0) by (vm_compute in MK; injection MK as <-; reflexivity).
  assert (F : Forall (allowed c) (repeat 0 2049)).
  { apply Forall_forall; intros x I; apply repeat_spec in I; subst; left; eapply nth_error_In; eauto. }
  destruct (C87_ply_counts_partial args_full c [repeat 0 2049] MK) as [m [E [_ M]]]; [constructor; auto|].
  exists c, (repeat 0 2049), m. repeat split; auto. rewrite (M 0%nat 1%nat 0); auto.
Qed.
Print Assumptions C87_large_counts_refuted.

(* ------------------------------------------------------------------ *)
(** ** the penalties of the 10% rule *)
Lemma plies_at_count c a ss : consistent c -> (forall x, In x ss -> In x (set_of_angles c)) -> plies_at a ss = count a ss.
Proof.
  intros K H; unfold plies_at. destruct (a =? 90); [|lia].
  assert (count (-90) ss = 0); [|lia]. pose proof (no_minus_90 c K) as N. clear - H N.
  induction ss as [|x t IH]; [reflexivity|]. rewrite count_cons, IH by (intros; apply H; right; auto).
  destruct (Z.eq_dec x (-90)) as [->|]; [exfalso; apply N, H; left; auto|lia].
Qed.
Lemma count_le a ss : 0 <= count a ss <= zlen ss.
Proof. induction ss as [|x t IH]; [cbn; lia|]. rewrite count_cons. unfold zlen in *; cbn [length]. destruct (Z.eq_dec x a); lia. Qed.

Lemma row_counts c ss : consistent c -> (forall x, In x ss -> In x (set_of_angles c)) -> zlen ss <= 2048 ->
  exists m, tally c ss (repeat 0 (length (set_of_angles c))) = Ok m /\ map inject_Z m = ply_counts c ss.
Proof.
  intros K H L. destruct (tally_counts c ss K) as [m [E [Lm M]]]; [apply Forall_forall; intros x I; left; auto|].
  exists m; split; [exact E|]. unfold ply_counts. rewrite <- (map_map (fun a => count a ss) inject_Z). f_equal.
  apply nth_ext with (d := 0) (d' := count 0 ss); [rewrite map_length; auto|]. intros i Hi. rewrite Lm in Hi.
  rewrite (map_nth (fun a => count a ss)). rewrite (M i (nth i (set_of_angles c) 0)); [|apply nth_error_nth'; auto].
  rewrite (plies_at_count c) by auto. apply Z.min_l. pose proof (count_le (nth i (set_of_angles c) 0) ss); lia.
Qed.

Lemma row_penalty_ok c ss m : consistent c -> (forall x, In x ss -> In x (set_of_angles c)) -> ss <> [] -> map inject_Z m = ply_counts c ss ->
  exists q, (if Qltb 0 (percent_tot c) then row_penalty c m else Ok 0%Q) = Ok q /\ (0 <= q)%Q /\ ((q == 0)%Q <-> ten_spec 0 false false c ss).
Proof.
  intros K H N E. destruct (calc_penalty_10_pc_spec c ss 1 K H N) as [p [q [P [Q D]]]].
  destruct (calc_penalty_10_ss_spec c ss K N) as [q' [Q' [Z1 Z2]]]. assert (q' = q) by congruence; subst q'.
  unfold calc_penalty_10_pc in P. unfold row_penalty; rewrite E. destruct (Qltb 0 (percent_tot c)).
  - destruct (Qeq_bool (sumQ (ply_counts c ss)) 0); [discriminate|].
    destruct (getQ (ply_counts c ss) c 0) as [n0|]; [|discriminate]. destruct (getQ (ply_counts c ss) c 45) as [n45|]; [|discriminate].
    destruct (getQ (ply_counts c ss) c 90) as [n90|]; [|discriminate]. destruct (getQ (ply_counts c ss) c (-45)) as [n135|]; [|discriminate].
    cbn [bind] in *. eexists; split; [reflexivity|].
    assert (X : (pen10 c (n0 / sumQ (ply_counts c ss)) (n45 / sumQ (ply_counts c ss)) (n90 / sumQ (ply_counts c ss)) (n135 / sumQ (ply_counts c ss)) == q)%Q).
    { injection P as <-. rewrite Qmult_1_l in D. rewrite Qmult_1_l in D. exact D. }
    rewrite X. split; auto.
  - injection P as <-. exists 0%Q. split; [reflexivity|]; split; [lra|]. rewrite <- Z2; split; intros; lra.
Qed.

Lemma one_penalty_spec c distance s lp : consistent c -> (rule_10_percent c && rule_10_Abdalla c)%bool = false ->
  (forall x, In x s -> In x (set_of_angles c)) -> s <> [] -> zlen s <= 2048 ->
  exists q, penalty_10_of c distance s lp = Ok q /\ (0 <= q)%Q /\ ((q == 0)%Q <-> ten_spec 0 false false c s).
Proof.
  intros K AB H N L. unfold penalty_10_of. destruct (row_counts c s K H L) as [m [E M]]. rewrite E; cbn [bind]. rewrite AB.
  apply row_penalty_ok; auto.
Qed.

Lemma penalties_rows c distance : (rule_10_percent c && rule_10_Abdalla c)%bool = false -> forall ss lps, length lps = length ss ->
  Forall (fun s => exists m q, tally c s (repeat 0 (length (set_of_angles c))) = Ok m /\ (if Qltb 0 (percent_tot c) then row_penalty c m else Ok 0%Q) = Ok q) ss ->
  penalty_10 c distance (length ss) ss lps = mapM (fun x => penalty_10_of c distance (fst x) (snd x)) (List.combine ss lps).
Proof.
  intros AB ss lps L F. unfold penalty_10, calc_ply_counts. rewrite AB.
  assert (X : mapM (fun i => do s <- get ss (Z.of_nat i); tally c s (repeat 0 (length (set_of_angles c)))) (seq 0 (length ss)) = mapM (fun s => tally c s (repeat 0 (length (set_of_angles c)))) ss).
  { clear - F. assert (G : forall pre t, ss = pre ++ t -> mapM (fun i => do s <- get ss (Z.of_nat i); tally c s (repeat 0 (length (set_of_angles c)))) (seq (length pre) (length t)) = mapM (fun s => tally c s (repeat 0 (length (set_of_angles c)))) t).
    { intros pre t; revert pre; induction t as [|x t IH]; intros pre E; [reflexivity|]. cbn [length seq mapM].
      rewrite (get_ok ss (length pre) []) by (rewrite E, app_length; cbn [length]; lia). cbn [bind].
      rewrite E at 1. rewrite nth_middle. rewrite <- (IH (pre ++ [x])) by (rewrite <- app_assoc; exact E).
      rewrite app_length, Nat.add_1_r. reflexivity. }
    apply (G [] ss); reflexivity. }
  rewrite X. clear X. revert lps L. induction F as [|s t [m [q [T P]]] F IH]; intros [|lp lps] L; try discriminate; [cbn; unfold calc_penalty_10_rows; destruct (Qltb 0 (percent_tot c)); reflexivity|].
  cbn [mapM List.combine fst snd]. rewrite T; cbn [bind]. rewrite <- IH by (cbn in L; lia). unfold penalty_10_of. rewrite T; cbn [bind]. rewrite AB, P; cbn [bind].
  assert (M2 : exists ms, mapM (fun s => tally c s (repeat 0 (length (set_of_angles c)))) t = Ok ms).
  { clear - F. induction F as [|s t [m [q [T _]]] F [ms IH]]; [exists []; reflexivity|]. cbn [mapM]; rewrite T, IH; cbn [bind]; eauto. }
  destruct M2 as [ms M2]; rewrite M2; cbn [bind]. unfold calc_penalty_10_rows. destruct (Qltb 0 (percent_tot c)).
  - cbn [mapM]. rewrite P; cbn [bind]. reflexivity.
  - injection P as <-. reflexivity.
Qed.

(** ** C87: without the rule of Abdalla, the penalties of the repaired panels are those of each
    panel alone; they are non-negative, and zero exactly for the panels that satisfy the 10% rule *)
Theorem C87_penalty : forall args c distance ss lps, mk_cons args = Ok c -> (rule_10_percent c && rule_10_Abdalla c)%bool = false ->
  length lps = length ss -> (forall s, In s ss -> s <> [] /\ zlen s <= 2048 /\ forall x, In x s -> In x (set_of_angles c)) ->
  exists pt, penalty_10 c distance (length ss) ss lps = Ok pt /\ mapM (fun x => penalty_10_of c distance (fst x) (snd x)) (List.combine ss lps) = Ok pt /\
    length pt = length ss /\
    forall i, (i < length ss)%nat -> (0 <= nth i pt 0)%Q /\ ((nth i pt 0 == 0)%Q <-> ten_spec 0 false false c (nth i ss [])).
Proof.
  intros args c distance ss lps MK AB L H. pose proof (mk_cons_consistent args c MK) as K.
  rewrite penalties_rows; auto.
  - assert (G : forall ss lps, length lps = length ss -> (forall s, In s ss -> s <> [] /\ zlen s <= 2048 /\ forall x, In x s -> In x (set_of_angles c)) ->
      exists pt, mapM (fun x => penalty_10_of c distance (fst x) (snd x)) (List.combine ss lps) = Ok pt /\ length pt = length ss /\
      forall i, (i < length ss)%nat -> (0 <= nth i pt 0)%Q /\ ((nth i pt 0 == 0)%Q <-> ten_spec 0 false false c (nth i ss []))).
    { clear - K AB. induction ss as [|s t IH]; intros [|lp lps] L H; try discriminate; [exists []; repeat split; auto; cbn in *; lia|].
      destruct (H s (or_introl eq_refl)) as [N [Z X]]. destruct (one_penalty_spec c distance s lp K AB X N Z) as [q [Q [Q0 Q1]]].
      destruct (IH lps) as [pt [E [Lp P]]]; [cbn in L; lia|intros; apply H; right; auto|].
      exists (q :: pt). cbn [mapM List.combine fst snd]. rewrite Q; cbn [bind]; rewrite E; cbn [bind]. split; [reflexivity|]; split; [cbn; lia|].
      intros [|i] Hi; cbn [nth]; [auto|]. apply P; cbn in Hi; lia. }
    destruct (G ss lps L H) as [pt [E [Lp P]]]. exists pt; auto.
  - apply Forall_forall; intros s I. destruct (H s I) as [N [Z X]]. destruct (row_counts c s K X Z) as [m [E M]].
    destruct (row_penalty_ok c s m K X N M) as [q [Q _]]. eauto.
Qed.
Print Assumptions C87_penalty.

(** with the rule of Abdalla, they are the distances to its region *)
Theorem C87_penalty_abdalla : forall args c distance ss lps, mk_cons args = Ok c -> (rule_10_percent c && rule_10_Abdalla c)%bool = true ->
  Forall (Forall (allowed c)) ss -> length lps = length ss ->
  penalty_10 c distance (length ss) ss lps = Ok (map distance lps) /\
  mapM (fun x => penalty_10_of c distance (fst x) (snd x)) (List.combine ss lps) = Ok (map distance lps).
Proof.
  intros args c distance ss lps MK AB F L. split.
  - unfold penalty_10. destruct (C87_ply_counts_partial args c ss MK F) as [m [E _]]. rewrite E; cbn [bind]. rewrite AB. reflexivity.
  - revert lps L. induction F as [|s t Fs F IH]; intros [|lp lps] L; try discriminate; [reflexivity|]. cbn [List.combine mapM fst snd map]. rewrite IH by (cbn in L; lia).
    destruct (C87_ply_counts_partial args c [s] MK (Forall_cons _ Fs (Forall_nil _))) as [m [E _]]. unfold calc_ply_counts in E. cbn [length seq mapM] in E.
    change (get [s] (Z.of_nat 0)) with (@Ok (list Z) s) in E. cbn [bind] in E. unfold penalty_10_of.
    destruct (tally c s (repeat 0 (length (set_of_angles c)))) as [pc|e]; cbn [bind] in *; [|discriminate]. rewrite AB. reflexivity.
Qed.
Print Assumptions C87_penalty_abdalla.

(* ------------------------------------------------------------------ *)
(** ** the ply counts of a set of possible sublaminates *)
(** number of plies added in the direction [a] by one row of sublaminates, counting the last ply
    for one half when it is the middle ply *)
Definition added (a middle_ply : Z) (row row2 : list Z) : Q :=
  (inject_Z (plies_at a row + plies_at a row2) - (if middle_ply =? 0 then 0 else inject_Z (plies_at a [last row 0%Z]) * (1 # 2)))%Q.

Lemma add_plies_ok c : consistent c -> forall ss n, length n = length (set_of_angles c) -> Forall (allowed c) ss ->
  exists m, add_plies c ss n = Ok m /\ length m = length n /\
    forall i a, nth_error (set_of_angles c) i = Some a -> (nth i m 0 == nth i n 0 + inject_Z (plies_at a ss))%Q.
Proof.
  intros K; induction ss as [|x t IH]; intros n Ln F; cbn [add_plies].
  - exists n; repeat split; auto. intros i a _. unfold plies_at; cbn [count]. destruct (a =? 90); cbn; ring.
  - inversion F as [|? ? Ax F']; subst. destruct (allowed_index c x Ax) as [j J]. unfold index_or_key; rewrite J; cbn [bind].
    pose proof (ind_angle_lt c x j J) as Hj. rewrite (get_ok n j 0%Q) by lia. cbn [bind].
    destruct (IH (upd j (nth j n 0 + 1)%Q n)) as [m [E [Lm M]]]; auto; [rewrite upd_length; auto|].
    rewrite upd_length in Lm. exists m; split; [exact E|]; split; [exact Lm|]. intros i a N. rewrite (M i a N), nth_upd.
    rewrite <- !(at_index_plies c i a _ K N). unfold at_index; cbn [filter]; rewrite J.
    destruct (Nat.eqb_spec j i) as [->|Ne]; cbn [andb]; [|reflexivity].
    assert (B : Nat.ltb i (length n) = true) by (apply Nat.ltb_lt; lia). rewrite B. unfold zlen; cbn [length].
    rewrite Nat2Z.inj_succ. unfold Z.succ. rewrite inject_Z_plus. ring.
Qed.

Lemma row_ok c ini mid row row2 : consistent c -> length ini = length (set_of_angles c) -> Forall (allowed c) row ->
  Forall (allowed c) (match row2 with Some r => r | None => [] end) -> (mid = 0 \/ row <> []) ->
  exists m, plies_per_angle_row c false ini mid row row2 = Ok m /\
    forall i a, nth_error (set_of_angles c) i = Some a -> (nth i m 0 == nth i ini 0 + added a mid row (match row2 with Some r => r | None => [] end))%Q.
Proof.
  intros K L F F2 H. unfold plies_per_angle_row.
  destruct (add_plies_ok c K row ini L F) as [n [E [Ln N]]]. rewrite E; cbn [bind].
  set (r2 := match row2 with Some r => r | None => [] end) in *.
  assert (X : exists n', (match row2 with Some l => add_plies c l n | None => Ok n end) = Ok n' /\ length n' = length n /\ forall i a, nth_error (set_of_angles c) i = Some a -> (nth i n' 0 == nth i n 0 + inject_Z (plies_at a r2))%Q).
  { unfold r2 in *; destruct row2 as [r|]; [apply add_plies_ok; auto; lia|]. exists n; repeat split; auto. intros i a _. unfold plies_at; cbn [count]. destruct (a =? 90); cbn; ring. }
  destruct X as [n' [E' [Ln' N']]]. rewrite E'; cbn [bind]. unfold added. destruct (Z.eqb_spec mid 0) as [->|Nm].
  - exists n'; split; [reflexivity|]. intros i a J. rewrite (N' i a J), (N i a J). rewrite inject_Z_plus. ring.
  - destruct H as [H|H]; [contradiction|]. destruct (exists_last H) as [l [x ->]].
    assert (G : get (l ++ [x]) (-1) = Ok x).
    { unfold get, py_get. cbn [Z.leb Z.compare].
      assert (D : (- zlen (l ++ [x]) <=? -1) = true) by (apply Z.leb_le; unfold zlen; rewrite app_length; cbn [length]; lia). rewrite D.
      replace (Z.to_nat (zlen (l ++ [x]) + -1)) with (length l) by (unfold zlen; rewrite app_length; cbn [length]; lia).
      rewrite nth_error_app2, Nat.sub_diag by lia. reflexivity. }
    rewrite G; cbn [bind]. apply Forall_app in F; destruct F as [_ F]; inversion F as [|? ? Ax _]; subst.
    destruct (allowed_index c x Ax) as [j J]. unfold index_or_key; rewrite J; cbn [bind].
    pose proof (ind_angle_lt c x j J) as Hj. rewrite (get_ok n' j 0%Q) by lia. cbn [bind]. eexists; split; [reflexivity|].
    intros i a I. rewrite last_last, nth_upd. rewrite inject_Z_plus.
    assert (P : plies_at a [x] = if Nat.eqb j i then 1 else 0).
    { rewrite <- (at_index_plies c i a _ K I). unfold at_index; cbn [filter]; rewrite J. destruct (Nat.eqb j i); reflexivity. }
    rewrite P. destruct (Nat.eqb_spec j i) as [->|Ne]; cbn [andb].
    + assert (B : Nat.ltb i (length n') = true) by (apply Nat.ltb_lt; lia). rewrite B. rewrite (N' i a I), (N i a I). change (inject_Z 1) with 1%Q. ring.
    + rewrite (N' i a I), (N i a I). change (inject_Z 0) with 0%Q. ring.
Qed.

Theorem C87_half_plies : forall args c ini mid angle angle2, mk_cons args = Ok c -> length ini = length (set_of_angles c) ->
  Forall (Forall (allowed c)) angle -> (mid = 0 \/ Forall (fun row => row <> []) angle) ->
  (match angle2 with Some m => length m = length angle /\ Forall (Forall (allowed c)) m | None => True end) ->
  exists t, calc_n_plies_per_angle c false ini mid angle angle2 = Ok t /\ length t = length angle /\
    forall p i a, (p < length angle)%nat -> nth_error (set_of_angles c) i = Some a ->
      (nth i (nth p t []) 0 == nth i ini 0 + added a mid (nth p angle []) (match angle2 with Some m => nth p m [] | None => [] end))%Q.
Proof.
  intros args c ini mid angle angle2 MK L F H H2. pose proof (mk_cons_consistent args c MK) as K. unfold calc_n_plies_per_angle.
  set (f := fun i : nat => _).
  set (good := fun (p : nat) (v : list Q) => forall i a, nth_error (set_of_angles c) i = Some a ->
      (nth i v 0 == nth i ini 0 + added a mid (nth p angle []) (match angle2 with Some m => nth p m [] | None => [] end))%Q).
  assert (R : forall p, (p < length angle)%nat -> exists v, f p = Ok v /\ good p v).
  { intros p Hp. unfold f. rewrite (get_ok angle p []) by auto. cbn [bind].
    assert (I : In (nth p angle []) angle) by (apply nth_In; auto).
    assert (A1 : Forall (allowed c) (nth p angle [])) by (rewrite Forall_forall in F; apply F; auto).
    assert (A2 : mid = 0 \/ nth p angle [] <> []) by (destruct H as [|H]; [auto|right; rewrite Forall_forall in H; apply H; auto]).
    destruct angle2 as [m|].
    - destruct H2 as [Lm Fm]. rewrite (get_ok m p []) by lia. cbn [bind].
      apply (row_ok c ini mid (nth p angle []) (Some (nth p m []))); auto. rewrite Forall_forall in Fm; apply Fm, nth_In; lia.
    - cbn [bind]. apply (row_ok c ini mid (nth p angle []) None); auto. }
  assert (G : forall l, (forall p, In p l -> (p < length angle)%nat) -> exists r, mapM f l = Ok r /\ Forall2 good l r).
  { induction l as [|p l IH]; intros B; cbn [mapM]; [exists []; auto|]. destruct (R p (B p (or_introl eq_refl))) as [v [V1 V2]]. rewrite V1; cbn [bind].
    destruct IH as [r [R1 R2]]; [intros; apply B; right; auto|]. rewrite R1; cbn [bind]. eauto. }
  destruct (G (rev (seq 0 (length angle)))) as [r [R1 R2]]; [intros p I; apply in_rev, in_seq in I; lia|]. rewrite R1; cbn [bind].
  assert (R3 : Forall2 good (seq 0 (length angle)) (rev r)).
  { rewrite <- (rev_involutive (seq 0 (length angle))). clear - R2. induction R2 as [|p v l r G R IH]; cbn [rev]; [constructor|]. apply Forall2_app; auto. }
  exists (rev r); split; [reflexivity|]. assert (Lr : length (rev r) = length angle).
  { clear - R3. assert (X : length (seq 0 (length angle)) = length (rev r)) by (induction R3; cbn; auto). rewrite seq_length in X; auto. }
  split; [exact Lr|]. intros p i a Hp J.
  assert (Y : good p (nth p (rev r) [])); [|apply Y; exact J].
  clear - R3 Hp. assert (Z : forall l v q, Forall2 good l v -> (q < length l)%nat -> good (nth q l 0%nat) (nth q v [])).
  { intros l v q H; revert q; induction H; intros [|q] Hq; cbn in *; try lia; auto. apply IHForall2; lia. }
  specialize (Z _ _ p R3). rewrite seq_length, seq_nth in Z by auto. apply Z; auto.
Qed.
Print Assumptions C87_half_plies.

(** a vector of integers of initial counts loses the half ply: the ply counted in the mid-plane is
    removed altogether *)
Theorem C87_integers_refuted : exists c t, mk_cons args_full = Ok c /\ nth_error (set_of_angles c) 3 = Some 90 /\
  calc_n_plies_per_angle c true [0; 0; 0; 0]%Q 3 [[0; 45; 90]] None = Ok t /\ (nth 3 (nth 0 t []) 0 == 0)%Q /\ (added 90 3 [0; 45; 90]%Z [] == 1 # 2)%Q.
Proof. do 2 eexists. split; [reflexivity|]. split; [reflexivity|]. split; [vm_compute; reflexivity|]. split; vm_compute; reflexivity. Qed.
Print Assumptions C87_integers_refuted.

Example C87_example : exists c m pt t, mk_cons args_full = Ok c /\
  calc_ply_counts c 2 [[45; -45; 90; 0; -90; 0]; [0; 0; 90]] = Ok m /\ m = [[1; 2; 1; 2]; [0; 2; 0; 1]] /\
  penalty_10 c (fun _ => 0%Q) 2 [[45; -45; 90; 0; 90; 0]; [0; 0; 90]] [[]; []] = Ok pt /\ (nth 0 pt 1 == 0)%Q /\ (nth 1 pt 0 == 2 # 10)%Q /\
  calc_n_plies_per_angle c false [1; 0; 0; 0]%Q 5 [[45; 0]; [-45; 90]] (Some [[90; 90]; [0; 0]]) = Ok t /\
  Forall2 (Forall2 Qeq) t [[1; 1 # 2; 1; 2]; [2; 2; 0; 1 # 2]]%Q.
Proof.
  do 4 eexists. split; [reflexivity|]. split; [vm_compute; reflexivity|]. split; [reflexivity|]. split; [vm_compute; reflexivity|].
  split; [vm_compute; reflexivity|]. split; [vm_compute; reflexivity|]. split; [vm_compute; reflexivity|]. repeat constructor; vm_compute; reflexivity.
Qed.
