(* Properties_finalreturns.v - C64: the selection of the best design always returns one. *)
From Coq Require Import Lqa Qabs.
From Verif Require Import Base Constraints Guidelines SpecGuidelines GuidelinesProofs ConstraintsProofs GateProofs Properties_guidelines Spacing Strip Search Objectives ObjectivesProofs
  Format SpecRedesign Redesign Properties_redesign RepairMp Properties_repairmp Properties_objectives Stiffness StiffnessProofs Properties_ortho Properties_repairdiso Properties_membrane Final Properties_final.
Local Open Scope Z_scope.

Section Spec.
Variables (c : cons) (panels : list fpanel) (lampam : list Z -> list Q) (pen10 : list Z -> list Q -> result Q).
Variables (targets weights : list (list Q)) (repair : list (list Z) -> result repaired).

(** a design that can be evaluated: each panel has a stack with its number of plies, and the
    repair ends, with or without success, with one stack of known angles for each panel *)
Definition repairs_to (d : list (list Z * list Z)) (r : repaired) : Prop :=
  exists stacks, Forall2 (fun pp s => joined c (fst pp) (snd pp) s) (List.combine panels d) stacks /\ length d = length panels /\
    repair stacks = Ok r /\ length (x_ss r) = length panels /\
    forall i s p, nth_error (x_ss r) i = Some s -> nth_error panels i = Some p -> zlen s = f_plies p.

(** everything that the evaluation of the designs uses is given *)
Record workable (designs : list (list (list Z * list Z))) : Prop := {
  k_designs : forall d, In d designs -> exists r, repairs_to d r /\ (forall s, In s (x_ss r) -> Forall angle_ok s /\ ~ covered_plies c s []);
  k_contig : contig c = false -> n_contig c = 1%nat;
  k_pen10 : forall s, exists q, pen10 s (lampam s) = Ok q;
  k_lampam : forall s, (4 <= length (lampam s))%nat;
  k_sizes : forall s i, (i < length panels)%nat -> length (nth i targets []) = length (lampam s) /\ length (nth i weights []) = length (lampam s) }.
End Spec.

Section Proofs.
Variables (c : cons) (panels : list fpanel) (lampam : list Z -> list Q) (pen10 : list Z -> list Q -> result Q).
Variables (targets weights : list (list Q)) (panel_weightings : list Q) (coeffs : coefficients).
Variable repair : list (list Z) -> result repaired.
Variable designs : list (list (list Z * list Z)).
Hypothesis I : inputs c panels targets weights panel_weightings repair designs.
Hypothesis W : workable c panels lampam pen10 targets weights repair designs.

Lemma joined_full_stack p part s : In p panels -> joined c p part s -> full_stack c p part = Ok s.
Proof using I.
  intros Hp (L & A & B & M). unfold full_stack. destruct (sym c) eqn:Y.
  - destruct (f_middle p) eqn:F.
    + destruct (M eq_refl eq_refl) as [l [m [E1 E2]]]. pose proof (n_middle _ _ _ _ _ _ _ I p Hp F) as N.
      assert (f_middle_index p = length (l ++ [m])) as X.
      { rewrite E2 in L. unfold zlen in L. rewrite app_length in *. cbn [length] in *. rewrite rev_length in L. lia. }
      unfold delete_at. rewrite E1, X. destruct (Nat.ltb_spec (length (l ++ [m])) (length ((l ++ [m]) ++ rev (l ++ [m])))) as [_|H].
      2: { rewrite app_length, rev_length, app_length in H. cbn [length] in H. lia. }
      rewrite del_app_r by lia. rewrite Nat.sub_diag, rev_app_distr. cbn [rev app del bind]. rewrite <- app_assoc. cbn [app]. rewrite <- E2.
      rewrite L, Z.eqb_refl. reflexivity.
    + rewrite <- (B eq_refl eq_refl). cbn [bind]. rewrite L, Z.eqb_refl. reflexivity.
  - rewrite <- (A eq_refl). cbn [bind]. rewrite L, Z.eqb_refl. reflexivity.
Qed.

Lemma joined_full_stacks : forall ps d stacks, (forall p, In p ps -> In p panels) -> length d = length ps ->
  Forall2 (fun pp s => joined c (fst pp) (snd pp) s) (List.combine ps d) stacks -> full_stacks c ps d = Ok stacks.
Proof using I.
  induction ps as [|p ps IH]; intros [|x d] stacks Hp L F; cbn [length] in L; try lia; cbn [List.combine] in F.
  - inversion F; reflexivity.
  - inversion F as [|? s ? st J F' E1 E2]; subst. cbn [full_stacks fst snd] in *. rewrite (joined_full_stack p x s) by (auto; apply Hp; left; reflexivity).
    cbn [bind]. rewrite (IH d st); [reflexivity|intros; apply Hp; right; auto|lia|exact F'].
Qed.

Lemma penalties_total ss : length ss = length panels -> (forall s, In s ss -> Forall angle_ok s /\ ~ covered_plies c s []) ->
  exists pd pc pt, penalties_of c panels pen10 ss (map lampam ss) = Ok (pd, pc, pt) /\ length pd = length panels /\ length pc = length panels /\ length pt = length panels.
Proof using I W.
  intros L A. unfold penalties_of.
  destruct (diso_penalty_mp_covered ss c) as [n1 [E1 F1]]; [apply Forall_forall; intros s Hs; apply A, Hs|intros s Hs; apply A, Hs|].
  rewrite E1. cbn [bind].
  assert (exists n2, calc_penalty_contig_mp ss c = Ok n2 /\ length n2 = length ss) as [n2 [E2 L2]].
  { destruct (contig c) eqn:C.
    - destruct (n_contig_ok _ _ _ _ _ _ _ I C) as [K _]. destruct (contig_penalty_mp_covered ss c K) as [r [E _]]. exists r. split; [exact E|].
      unfold calc_penalty_contig_mp, calc_matrix_viol_contig in E. destruct (mapM _ _) as [v|] eqn:V; cbn [bind] in E; [|discriminate].
      injection E as <-. apply mapM_len in V. rewrite !map_length in *. exact V.
    - pose proof (k_contig _ _ _ _ _ _ _ _ W C) as K. unfold calc_penalty_contig_mp. rewrite K.
      enough (exists v, calc_matrix_viol_contig (map (dt_trim c) ss) 1 = Ok v /\ length v = length ss) as [v [-> Lv]].
      { cbn [bind]. exists (map nb_true v). rewrite map_length. auto. }
      clear. induction ss as [|s ss [v [E Lv]]]; [exists []; auto|]. unfold calc_matrix_viol_contig in *. cbn [map mapM].
      assert (exists b, viol_contig_1 (dt_trim c s) 1 = Ok b) as [b ->].
      { unfold viol_contig_1. generalize (dt_trim c s) as t; intros t. generalize (seq 0 (length t)) as l. induction l as [|i l [b E']]; [exists []; reflexivity|].
        cbn [mapM]. rewrite E'. unfold is_contig at 1. destruct (Nat.ltb 1 _); cbn [Nat.leb andb Nat.eqb negb bind]; eauto. }
      rewrite E. cbn [bind]. exists (b :: v). cbn [length]. auto. }
  rewrite E2. cbn [bind].
  assert (exists p10, mapM (fun x => pen10 (fst x) (snd x)) (List.combine ss (map lampam ss)) = Ok p10 /\ length p10 = length ss) as [p10 [E3 L3]].
  { clear - W. induction ss as [|s ss [p [E Lp]]]; [exists []; auto|]. cbn [map List.combine mapM fst snd].
    destruct (k_pen10 _ _ _ _ _ _ _ _ W s) as [q ->]. rewrite E. cbn [bind]. exists (q :: p). cbn [length]. auto. }
  rewrite E3. cbn [bind]. do 3 eexists. split; [reflexivity|].
  assert (L1 : length n1 = length panels).
  { unfold calc_number_violations_diso_mp, calc_penalty_diso_mp_0 in E1. rewrite <- L.
    apply F2_length in F1. auto. }
  assert (G : forall active n, length n = length panels -> length (over_plies panels active n) = length panels).
  { clear. intros active n Ln. unfold over_plies. destruct (_ && _)%bool; [rewrite zip_length; rewrite !map_length; lia|apply map_length]. }
  split; [apply G; exact L1|]. split; [apply G; lia|]. lia.
Qed.

Lemma each_panel_total ss : length ss = length panels -> exists obj, each_panel targets weights (map lampam ss) = Ok obj /\ length obj = length panels.
Proof using I W.
  intros L. pose proof (n_targets _ _ _ _ _ _ _ I) as T. pose proof (n_weights _ _ _ _ _ _ _ I) as Wt. pose proof (k_sizes _ _ _ _ _ _ _ _ W) as S.
  unfold each_panel. clear I W. revert ss targets weights L T Wt S. induction panels as [|p ps IH]; intros ss ts ws L T Wt S.
  { destruct ss; [|discriminate]. exists []. auto. }
  destruct ss as [|s ss]; [discriminate|]. destruct ts as [|t ts]; [discriminate|]. destruct ws as [|w ws]; [discriminate|].
  cbn [length] in *. destruct (IH ss ts ws ltac:(lia) ltac:(lia) ltac:(lia)) as [obj [E Lo]].
  { intros s' i Hi. exact (S s' (Datatypes.S i) ltac:(lia)). }
  cbn [map List.combine calc_obj_each_panel fst snd]. destruct (S s 0%nat ltac:(lia)) as [S1 S2]. cbn [nth] in S1, S2.
  unfold calc_obj_one_panel. rewrite S1, S2, Nat.eqb_refl. cbn [andb bind]. rewrite E. cbn [bind]. eexists. split; [reflexivity|]. cbn [length]. lia.
Qed.

Lemma with_penalties_total obj pd pc pt : length obj = length panels -> length pd = length panels -> length pc = length panels -> length pt = length panels ->
  exists q, with_penalties panels panel_weightings coeffs obj (pd, pc, pt) = Ok q.
Proof using I.
  intros Lo L1 L2 L3. unfold with_penalties. pose proof (n_weightings _ _ _ _ _ _ _ I) as Lw.
  match goal with |- exists q, calc_obj_multi_panel _ _ ?p ?k = _ => destruct (C39_value obj panel_weightings p k (length panels) Lo Lw) as [r [E _]] end; [|eauto].
  unfold all_args, proper; cbn [p_diso p_contig p_10 p_bal_ipo p_oopo p_weight]. rewrite map_length. tauto.
Qed.

(** the evaluation of a design; what was compared is what will be compared again *)
Lemma evaluate_total d : In d designs -> exists e pens, evaluate c panels lampam pen10 targets weights panel_weightings coeffs repair d = Ok e /\
  e_lps e = map lampam (x_ss (e_rep e)) /\ length (x_ss (e_rep e)) = length panels /\
  (forall i s p, nth_error (x_ss (e_rep e)) i = Some s -> nth_error panels i = Some p -> zlen s = f_plies p) /\
  penalties_of c panels pen10 (x_ss (e_rep e)) (e_lps e) = Ok pens /\
  ((e_total e < huge)%Q -> each_panel targets weights (e_lps e) = Ok (e_obj e) /\ with_penalties panels panel_weightings coeffs (e_obj e) pens = Ok (e_total e)).
Proof using I W.
  intros Hd. destruct (k_designs _ _ _ _ _ _ _ _ W d Hd) as [r [[stacks (J & Ld & R & Lr & Pl)] A]].
  unfold evaluate. rewrite (joined_full_stacks panels d stacks) by auto. cbn [bind]. rewrite R. cbn [bind].
  destruct (penalties_total (x_ss r) Lr A) as [pd [pc [pt (P & L1 & L2 & L3)]]]. rewrite P. cbn [bind].
  destruct (each_panel_total (x_ss r) Lr) as [obj [O Lo]].
  destruct (x_done r) eqn:D.
  - rewrite O. cbn [bind]. destruct (with_penalties_total obj pd pc pt Lo L1 L2 L3) as [q Q].
    destruct (forallb (fun x => negb (Qeq_bool x huge)) obj) eqn:F.
    + rewrite Q. cbn [bind]. eexists. exists (pd, pc, pt). split; [reflexivity|]. cbn [e_rep e_lps e_obj e_total]. split; [reflexivity|]. split; [exact Lr|]. split; [exact Pl|]. split; [exact P|]. intros _; split; assumption.
    + cbn [bind]. eexists. exists (pd, pc, pt). split; [reflexivity|]. cbn [e_rep e_lps e_obj e_total]. split; [reflexivity|]. split; [exact Lr|]. split; [exact Pl|]. split; [exact P|].
      intros X. exfalso. revert X. apply Qlt_irrefl.
  - cbn [bind]. assert (exists q, (if forallb (fun x => negb (Qeq_bool x huge)) (map (fun _ : fpanel => huge) panels) then
        with_penalties panels panel_weightings coeffs (map (fun _ => huge) panels) (pd, pc, pt) else Ok huge) = Ok q /\ q = huge) as [q [-> ->]].
    { pose proof (n_panels _ _ _ _ _ _ _ I) as N. destruct panels as [|p ps]; [congruence|]. cbn [map forallb]. change (Qeq_bool huge huge) with true. cbn [negb andb]. eauto. }
    cbn [bind]. eexists. exists (pd, pc, pt). split; [reflexivity|]. cbn [e_rep e_lps e_obj e_total]. split; [reflexivity|]. split; [exact Lr|]. split; [exact Pl|]. split; [exact P|].
    intros X. exfalso. revert X. apply Qlt_irrefl.
Qed.

Lemma joined_unique p x s1 s2 : joined c p x s1 -> joined c p x s2 -> s1 = s2.
Proof using.
  intros (_ & A1 & B1 & M1) (_ & A2 & B2 & M2). destruct (sym c).
  - destruct (f_middle p).
    + destruct (M1 eq_refl eq_refl) as [l [m [E1 ->]]]. destruct (M2 eq_refl eq_refl) as [l' [m' [E2 ->]]].
      rewrite E1 in E2. apply app_inj_tail in E2. destruct E2 as [-> ->]. reflexivity.
    + rewrite (B1 eq_refl eq_refl), (B2 eq_refl eq_refl). reflexivity.
  - rewrite (A1 eq_refl), (A2 eq_refl). reflexivity.
Qed.
Lemma repaired_unique d r1 r2 : In d designs -> (exists r, repairs_to c panels repair d r /\ (forall s, In s (x_ss r) -> Forall angle_ok s /\ ~ covered_plies c s [])) ->
  repaired_to c panels repair d r1 -> repaired_to c panels repair d r2 -> r1 = r2.
Proof using.
  intros _ _ [s1 [F1 R1]] [s2 [F2 R2]]. enough (s1 = s2) as -> by congruence. clear R1 R2. revert s2 F2.
  induction F1 as [|pp s l ss J F IH]; intros s2 F2; inversion F2 as [|? s' ? ss' J' F' E1 E2]; subst; [reflexivity|].
  f_equal; [eapply joined_unique; eauto|apply IH; auto].
Qed.
Lemma violations_unique active bad p s q1 q2 : violations c active bad p s q1 -> violations c active bad p s q2 -> (q1 == q2)%Q.
Proof using.
  unfold violations. destruct active; [|intros -> ->; reflexivity]. intros [n1 [-> C1]] [n2 [-> C2]].
  destruct (covered_exists c s) as [m Hm]. rewrite (counts_unique _ _ _ (C1 m Hm) (C2 m Hm)). reflexivity.
Qed.
Lemma penalised_unique ss pd pc pt pd' pc' pt' : penalised c panels lampam pen10 ss pd pc pt -> penalised c panels lampam pen10 ss pd' pc' pt' ->
  (penalised_objective panels lampam targets weights panel_weightings coeffs ss pd pc pt == penalised_objective panels lampam targets weights panel_weightings coeffs ss pd' pc' pt')%Q.
Proof using.
  clear. intros A B. unfold penalised_objective. apply sum_to_ext. intros i Hi. destruct (A i Hi) as (A1 & A2 & A3). destruct (B i Hi) as (B1 & B2 & B3).
  rewrite (violations_unique _ _ _ _ _ _ A1 B1), (violations_unique _ _ _ _ _ _ A2 B2). assert (nth i pt 0%Q = nth i pt' 0%Q) as -> by congruence. reflexivity.
Qed.
(** a repaired design has one value *)
Lemma valued_unique r q1 q2 : valued c panels lampam pen10 targets weights panel_weightings coeffs r q1 -> valued c panels lampam pen10 targets weights panel_weightings coeffs r q2 -> (q1 == q2)%Q.
Proof using.
  clear. intros (A1 & A2 & A3) (B1 & B2 & B3). destruct (x_done r) eqn:D; [|rewrite (A1 eq_refl), (B1 eq_refl); reflexivity].
  destruct (existsb (fun i => Qeq_bool (panel_objective lampam targets weights (x_ss r) i) 10000000000) (seq 0 (length panels))) eqn:X.
  - apply existsb_exists in X. destruct X as [i [Hi X]]. apply in_seq in Hi. apply Qeq_bool_iff in X.
    rewrite (A2 eq_refl), (B2 eq_refl); try reflexivity; exists i; split; try exact X; lia.
  - assert (forall i, (i < length panels)%nat -> ~ (panel_objective lampam targets weights (x_ss r) i == 10000000000)%Q) as N.
    { intros i Hi Y. enough (true = false) by discriminate. rewrite <- X. symmetry. apply existsb_exists. exists i. split; [apply in_seq; lia|apply Qeq_bool_iff, Y]. }
    destruct (A3 eq_refl N) as [pd [pc [pt [P ->]]]]. destruct (B3 eq_refl N) as [pd' [pc' [pt' [P' ->]]]]. apply penalised_unique; assumption.
Qed.

Lemma exceeds_self q : exceeds q q = false.
Proof using. clear. unfold exceeds. apply not_true_is_false. intros H. unfold Qltb in H. apply negb_true_iff, not_true_iff_false in H. apply H, Qle_bool_iff. lra. Qed.
Lemma differ_self (l : list (list Q)) x r : l = x :: r -> (1 <= length x)%nat -> all_differ l l = false.
Proof using.
  clear. intros -> H. destruct x as [|y x]; [cbn in H; lia|]. unfold all_differ. cbn [List.combine forallb fst snd].
  assert (Qeq_bool y y = true) as -> by (apply Qeq_bool_iff; reflexivity). reflexivity.
Qed.
End Proofs.

(** When every design can be evaluated and one of them can be repaired, with a value below 1e10,
    the selection returns a design with a value below 1e10 : none of its final checks (numbers
    of plies, lamination parameters, objectives) raises an exception *)
Theorem C64_returns : forall c panels lampam pen10 targets weights panel_weightings coeffs repair designs,
  inputs c panels targets weights panel_weightings repair designs ->
  workable c panels lampam pen10 targets weights repair designs ->
  (exists d r q, In d designs /\ repaired_to c panels repair d r /\ valued c panels lampam pen10 targets weights panel_weightings coeffs r q /\ (q < 10000000000)%Q) ->
  exists o, finish c panels lampam pen10 targets weights panel_weightings coeffs repair false designs = Ok (Some o) /\ (o_total o < 10000000000)%Q.
Proof.
  intros c panels lampam pen10 targets weights pw coeffs repair designs I W [d0 [r0 [q0 (Hd0 & R0 & V0 & Small0)]]].
  pose proof (evaluate_total c panels lampam pen10 targets weights pw coeffs repair designs I W) as Tot.
  assert (exists all, mapM (evaluate c panels lampam pen10 targets weights pw coeffs repair) designs = Ok all) as [all E].
  { clear - Tot. induction designs as [|d ds IH]; [exists []; reflexivity|]. cbn [mapM]. destruct (Tot d (or_introl eq_refl)) as [e [_ [-> _]]].
    destruct IH as [all ->]; [intros; apply Tot; right; auto|]. cbn [bind]. eauto. }
  unfold finish. rewrite E. cbn [bind]. set (k := fold_left _ all _). clearbody k. apply mapM_inv in E.
  assert (Ev : forall e, In e all -> exists d, In d designs /\ evaluate c panels lampam pen10 targets weights pw coeffs repair d = Ok e).
  { clear - E. induction E as [|d e ds all H F IH]; [intros e []|]. intros e' [<-|He]; [exists d; split; [left; auto|auto]|].
    destruct (IH _ He) as [d' [D1 D2]]. exists d'. split; [right; auto|auto]. }
  assert (exists e0, In e0 all /\ (e_total e0 < huge)%Q) as [e0 [He0 Q0]].
  { assert (exists e0, In e0 all /\ evaluate c panels lampam pen10 targets weights pw coeffs repair d0 = Ok e0) as [e0 [H0 E0]].
    { clear - E Hd0. induction E as [|d e ds all H F IH]; [destruct Hd0|]. destruct Hd0 as [->|H0]; [exists e; split; [left; auto|auto]|].
      destruct (IH H0) as [e' [A B]]. exists e'. split; [right; auto|auto]. }
    exists e0. split; [exact H0|]. destruct (evaluate_spec c panels lampam pen10 targets weights pw coeffs repair designs I d0 e0 Hd0 E0) as (R & V & _).
    rewrite (repaired_unique c panels repair designs d0 _ _ Hd0 (k_designs _ _ _ _ _ _ _ _ W d0 Hd0) R R0) in V.
    pose proof (valued_unique c panels lampam pen10 targets weights pw coeffs _ _ _ V V0) as X. unfold huge. rewrite X. exact Small0. }
  unfold select. destruct all as [|x0 xs] eqn:Eall; [destruct He0|]. rewrite <- Eall in *. clear Eall x0 xs.
  assert (exists i, argmin (map e_total all) = Ok i) as [i Ei].
  { unfold argmin, argbest. destruct all; [destruct He0|]. cbn [map]. eauto. }
  rewrite Ei. cbn [bind]. apply argmin_first in Ei. destruct Ei as (Li & _ & Mi). rewrite map_length in Li, Mi.
  destruct (nth_error all i) as [e|] eqn:Ne; [|apply nth_error_None in Ne; lia]. unfold row. rewrite Ne. cbn [bind].
  pose proof (nth_error_In _ _ Ne) as He. destruct (Ev e He) as [d [Hd Ed]].
  assert (Small : (e_total e < huge)%Q).
  { destruct (In_nth_error _ _ He0) as [j Nj]. assert (j < length all)%nat as Lj by (apply nth_error_Some; congruence).
    specialize (Mi j Lj). rewrite (nth_error_nth (map e_total all) i 0%Q (x := e_total e)) in Mi by (rewrite nth_error_map, Ne; reflexivity).
    rewrite (nth_error_nth (map e_total all) j 0%Q (x := e_total e0)) in Mi by (rewrite nth_error_map, Nj; reflexivity). lra. }
  destruct (Tot d Hd) as [e' [pens (Ed' & Lp & Lr & Pl & P & Again)]]. assert (e' = e) as -> by congruence. destruct (Again Small) as [O Q].
  assert (exists u, mapM (fun q => guard (negb (zlen (fst q) =? f_plies (snd q))) (Raised WrongPlyCount)) (List.combine (x_ss (e_rep e)) panels) = Ok u) as [u ->].
  { clear - Pl. generalize (x_ss (e_rep e)) panels Pl. induction l as [|s ss IH]; intros [|p ps] H; try (exists []; reflexivity).
    cbn [List.combine mapM fst snd]. rewrite (H 0%nat s p eq_refl eq_refl), Z.eqb_refl. cbn [guard negb bind].
    destruct (IH ps) as [u ->]; [intros i s' p' A B; exact (H (Datatypes.S i) s' p' A B)|]. cbn [bind]. eauto. }
  cbn [bind]. rewrite <- Lp.
  assert (all_differ (e_lps e) (e_lps e) = false) as ->.
  { rewrite Lp. pose proof (n_panels _ _ _ _ _ _ _ I) as N. destruct (x_ss (e_rep e)) as [|s ss]; [destruct panels; [congruence|discriminate]|].
    cbn [map]. apply (differ_self _ (lampam s) (map lampam ss) eq_refl). pose proof (k_lampam _ _ _ _ _ _ _ _ W s). lia. }
  unfold guard at 1. cbn [bind]. rewrite O. cbn [bind].
  assert (existsb (fun q => exceeds (fst q) (snd q)) (List.combine (e_obj e) (e_obj e)) = false) as ->.
  { generalize (e_obj e). induction l as [|x l IH]; [reflexivity|]. cbn [List.combine existsb fst snd]. rewrite exceeds_self. exact IH. }
  unfold guard at 1. cbn [bind]. rewrite P. cbn [bind]. rewrite Q. cbn [bind]. rewrite exceeds_self. unfold guard. cbn [bind].
  assert (exists ipo, calc_penalty_ipo_rows (e_lps e) 1 = Ok ipo) as [ipo ->].
  { rewrite Lp. clear - W. unfold calc_penalty_ipo_rows.
    enough (exists p, sequence (map (fun l => half_sum l 2 3) (map lampam (x_ss (e_rep e)))) = Ok p) as [p ->] by (cbn [bind]; eauto).
    induction (x_ss (e_rep e)) as [|s ss [p IH]]; [exists []; reflexivity|]. cbn [map sequence]. rewrite IH.
    pose proof (k_lampam _ _ _ _ _ _ _ _ W s) as L. unfold half_sum, at_.
    destruct (nth_error (lampam s) 2) eqn:N2; [|apply nth_error_None in N2; lia]. destruct (nth_error (lampam s) 3) eqn:N3; [|apply nth_error_None in N3; lia].
    cbn [bind]. eauto. }
  cbn [bind]. eexists. split; [reflexivity|]. cbn [o_total]. exact Small.
Qed.
Print Assumptions C64_returns.

(** hypotheses of [C64_returns] *)
Definition zero10 (s : list Z) (l : list Q) : result Q := Ok 0%Q.
Example C64_returns_example : exists c o,
  let targets := [[1 # 2; 0; 0; 0]; [1 # 2; 0; 0; 0]]%Q in let weights := [[1; 0; 0; 0]; [1; 0; 0; 0]]%Q in
  mk_cons (args_rd true false true 1 2) = Ok c /\
  inputs c two_panels targets weights [1 # 2; 1 # 2]%Q repair_2 [design_c; design_b; design_a] /\
  workable c two_panels lampam_2 zero10 targets weights repair_2 [design_c; design_b; design_a] /\
  (exists d r q, In d [design_c; design_b; design_a] /\ repaired_to c two_panels repair_2 d r /\
     valued c two_panels lampam_2 zero10 targets weights [1 # 2; 1 # 2]%Q coeffs_2 r q /\ (q < 10000000000)%Q) /\
  finish c two_panels lampam_2 zero10 targets weights [1 # 2; 1 # 2]%Q coeffs_2 repair_2 false [design_c; design_b; design_a] = Ok (Some o) /\ (o_total o < 1)%Q.
Proof.
  destruct (mk_cons (args_rd true false true 1 2)) as [c|] eqn:E; [|vm_compute in E; discriminate]. exists c. eexists. cbv zeta. split; [reflexivity|].
  pose proof (inputs_2 c [design_c; design_b; design_a] E) as I. split; [exact I|].
  vm_compute in E; injection E as <-.
  match type of I with inputs ?k _ _ _ _ _ _ => set (c := k) in * end.
  assert (K : forall d ss, In (d, ss) [(design_c, [[0; 0; 0; 0]; [0; 0; 0; 0; 0; 0; 0]]); (design_b, [[90; 45; 45; 90]; [90; 45; 0; 45; 0; 45; 90]]); (design_a, [[0; 45; 45; 0]; [0; 45; 90; 45; 90; 45; 0]])] ->
    exists r, repairs_to c two_panels repair_2 d r /\ (forall s, In s (x_ss r) -> Forall angle_ok s /\ ~ covered_plies c s [])).
  { intros d ss H. eexists. split.
    - exists ss. split; [|split; [|split; [reflexivity|]]]; destruct H as [H|[H|[H|[]]]]; injection H as <- <-; try reflexivity;
        try (repeat (apply Forall2_cons; [split; [reflexivity|]; split; [discriminate|]; split; [first [reflexivity|discriminate]|]; intros _; first [discriminate|intros _]|]); try apply Forall2_nil).
      all: try (split; [reflexivity|]; intros [|[|i]] s p X Y; cbn in X, Y; try (injection X as <-; injection Y as <-; reflexivity); destruct i; discriminate).
      + exists [0; 0; 0], 0. split; reflexivity.
      + exists [90; 45; 0], 45. split; reflexivity.
      + exists [0; 45; 90], 45. split; reflexivity.
    - cbn [x_ss]. intros s Hs. destruct H as [H|[H|[H|[]]]]; injection H as <- <-; destruct Hs as [<-|[<-|[]]];
        (split; [repeat (apply Forall_cons; [unfold angle_ok; lia|]); apply Forall_nil|intros C; apply covered_trim in C; discriminate C]). }
  split.
  { constructor.
    - intros d [<-|[<-|[<-|[]]]]; eapply K; cbn; eauto.
    - discriminate.
    - intros s. exists 0%Q. reflexivity.
    - intros s. cbn. lia.
    - intros s i Hi. cbn in Hi. destruct i as [|[|i]]; [split; reflexivity|split; reflexivity|lia]. }
  split.
  { destruct (evaluate c two_panels lampam_2 zero10 [[1 # 2; 0; 0; 0]; [1 # 2; 0; 0; 0]]%Q [[1; 0; 0; 0]; [1; 0; 0; 0]]%Q [1 # 2; 1 # 2]%Q coeffs_2 repair_2 design_a) as [e|] eqn:Ev; [|vm_compute in Ev; discriminate].
    destruct (evaluate_spec _ _ _ _ _ _ _ _ _ _ I design_a e ltac:(cbn; auto) Ev) as (R & V & _).
    exists design_a, (e_rep e), (e_total e). split; [cbn; auto|]. split; [exact R|]. split; [exact V|]. vm_compute in Ev. injection Ev as <-. reflexivity. }
  split; [vm_compute; reflexivity|reflexivity].
Qed.
