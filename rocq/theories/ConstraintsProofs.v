(* ConstraintsProofs.v - facts about every constructible Constraints object *)
From Verif Require Import Base Uniq Constraints Guidelines SpecGuidelines GuidelinesProofs.
From Coq Require Import Lqa.

Lemma guard_ok b e : guard b e = Ok tt <-> b = false.
Proof. unfold guard; destruct b; split; intros; congruence. Qed.

Lemma bind_guard {A} b e (k : unit -> result A) x :
  (do u <- guard b e; k u) = Ok x <-> b = false /\ k tt = Ok x.
Proof.
  unfold guard; destruct b; cbn [bind]; split.
  - discriminate.
  - intros [H _]; discriminate.
  - intros H; split; auto.
  - intros [_ H]; exact H.
Qed.

Lemma bind_ok {A B} (r : result A) (k : A -> result B) x :
  (do a <- r; k a) = Ok x <-> exists a, r = Ok a /\ k a = Ok x.
Proof.
  destruct r as [a|e]; cbn [bind]; split.
  - intros H; exists a; auto.
  - intros [a' [H1 H2]]; congruence.
  - discriminate.
  - intros [a' [H1 H2]]; discriminate.
Qed.

(** what the allowed angles must satisfy (spec) *)
Definition good_angles (r10 : bool) (angles : list Z) : Prop :=
  NoDup angles /\ Forall angle_ok angles /\
  (forall a, In a angles -> a <> 90 -> In (- a) angles) /\
  (exists a, In a angles /\ 0 < a < 90) /\
  (r10 = true -> In 0 angles /\ In 45 angles /\ In 90 angles /\ In (-45) angles).

(** angles_bal lists every 0 < theta < 90 once with the indices of +-theta *)
Definition good_bal (set : list Z) (ab : list (Z * nat * nat)) : Prop :=
  map (fun r => fst (fst r)) ab = filter (fun a => (0 <? a) && (a <? 90)) set /\
  forall e i j, In (e, i, j) ab ->
    nth_error set i = Some e /\ nth_error set j = Some (- e).

Lemma ind_angle_nth set a i :
  a <> -90 -> ind_angle set a = Some i -> nth_error set i = Some a.
Proof.
  unfold ind_angle; intros Ha.
  assert ((a =? -90) = false) as -> by (apply Z.eqb_neq; exact Ha); cbn [andb].
  intros H; apply index_of_some in H; tauto.
Qed.

Lemma build_angles_bal_ok set l :
  (forall a, In a l -> In a set /\ In (- a) set /\ 0 < a < 90) ->
  exists ab, build_angles_bal set l = Ok ab /\
    map (fun r => fst (fst r)) ab = l /\
    forall e i j, In (e, i, j) ab ->
      nth_error set i = Some e /\ nth_error set j = Some (- e).
Proof.
  induction l as [|a t IH]; intros H; cbn [build_angles_bal].
  - exists []; repeat split; auto; destruct H0.
  - destruct (H a (or_introl eq_refl)) as [H1 [H2 H3]].
    destruct IH as [r [Hr [Hm Hi]]]; [intros x Hx; apply H; right; exact Hx|].
    assert (exists i, ind_angle set a = Some i) as [i Ei].
    { unfold ind_angle; assert ((a =? -90) = false) as -> by (apply Z.eqb_neq; lia).
      cbn [andb]; apply index_of_in; exact H1. }
    assert (exists i, ind_angle set (- a) = Some i) as [j Ej].
    { unfold ind_angle; assert ((- a =? -90) = false) as -> by (apply Z.eqb_neq; lia).
      cbn [andb]; apply index_of_in; exact H2. }
    rewrite Ei, Ej, Hr; cbn [bind].
    exists ((a, i, j) :: r); split; [reflexivity|]; split; [cbn; congruence|].
    intros e i' j' [E|Hin]; [|apply Hi; exact Hin].
    injection E as <- <- <-; split; eapply ind_angle_nth; eauto; lia.
Qed.

Lemma set_fibre_spec angles r10 :
  (exists sa, set_fibre_orientations angles r10 = Ok sa) <-> good_angles r10 angles.
Proof.
  unfold set_fibre_orientations; split.
  - intros [sa H].
    rewrite bind_guard in H; destruct H as [G1 H].
    rewrite bind_guard in H; destruct H as [G2 H].
    rewrite bind_guard in H; destruct H as [G3 H].
    apply bind_ok in H; destruct H as [ab [Hab H]].
    rewrite bind_guard in H; destruct H as [G4 H].
    rewrite bind_guard in H; destruct H as [G5 _].
    assert (Hang : Forall angle_ok angles).
    { apply Forall_forall; intros x Hx; apply uniq_in in Hx.
      apply orb_false_iff in G1; destruct G1 as [Ga Gb].
      split.
      - destruct (Z.lt_ge_cases (-90) x) as [L|L]; auto.
        exfalso; apply not_true_iff_false in Gb; apply Gb, existsb_exists.
        exists x; split; auto; apply Z.leb_le; exact L.
      - destruct (Z.le_gt_cases x 90); auto.
        exfalso; apply not_true_iff_false in Ga; apply Ga, existsb_exists.
        exists x; split; auto; apply Z.ltb_lt; lia. }
    assert (Hopp : forall a, In a angles -> a <> 90 -> In (- a) angles).
    { intros a Ha Ha'; apply uniq_in in Ha; rewrite <- uniq_in.
      apply not_true_iff_false in G3.
      destruct (memb (- a) (uniq angles)) eqn:E; [apply memb_true; exact E|].
      exfalso; apply G3, existsb_exists; exists a; split; auto.
      rewrite E; apply andb_true_iff; split; auto; apply negb_true_iff, Z.eqb_neq; auto. }
    repeat split.
    + apply uniq_nodup_length, Nat.eqb_eq; destruct (Nat.eqb _ _); [auto|discriminate].
    + exact Hang.
    + exact Hopp.
    + destruct ab as [|[[e i] j] ab]; [discriminate|].
      destruct (filter (fun a => (0 <? a) && (a <? 90)) (uniq angles)) as [|x f] eqn:Ef.
      { cbn in Hab; discriminate. }
      assert (Hx : In x (filter (fun a => (0 <? a) && (a <? 90)) (uniq angles)))
        by (rewrite Ef; left; auto).
      apply filter_In in Hx; destruct Hx as [Hx1 Hx2].
      apply andb_true_iff in Hx2; destruct Hx2 as [Hx2 Hx3].
      exists x; split; [apply uniq_in; auto|]; apply Z.ltb_lt in Hx2, Hx3; lia.
    + subst r10; rewrite andb_true_r in G2; apply negb_false_iff in G2.
      rewrite !andb_true_iff, !memb_true, !uniq_in in G2; tauto.
    + subst r10; rewrite andb_true_r in G2; apply negb_false_iff in G2.
      rewrite !andb_true_iff, !memb_true, !uniq_in in G2; tauto.
    + subst r10; rewrite andb_true_r in G2; apply negb_false_iff in G2.
      rewrite !andb_true_iff, !memb_true, !uniq_in in G2; tauto.
    + subst r10; rewrite andb_true_r in G2; apply negb_false_iff in G2.
      rewrite !andb_true_iff, !memb_true, !uniq_in in G2; tauto.
  - intros [Hnd [Hang [Hopp [[a0 [Ha0 Hr0]] H10]]]].
    rewrite Forall_forall in Hang.
    destruct (build_angles_bal_ok (uniq angles)
                (filter (fun a => (0 <? a) && (a <? 90)) (uniq angles))) as [ab [Hab [Hm _]]].
    { intros a Ha; apply filter_In in Ha; destruct Ha as [Ha Hb].
      apply andb_true_iff in Hb; destruct Hb as [Hb Hc]; apply Z.ltb_lt in Hb, Hc.
      split; auto; split; [|lia]. rewrite uniq_in in *; apply Hopp; auto; lia. }
    eexists; rewrite bind_guard; split.
    { apply orb_false_iff; split; apply not_true_iff_false; rewrite existsb_exists;
        intros [x [Hx Hx']]; apply uniq_in, Hang in Hx; unfold angle_ok in Hx;
        [apply Z.ltb_lt in Hx' | apply Z.leb_le in Hx']; lia. }
    rewrite bind_guard; split.
    { destruct r10; [|apply andb_false_r].
      rewrite andb_true_r; apply negb_false_iff.
      rewrite !andb_true_iff, !memb_true, !uniq_in; tauto. }
    rewrite bind_guard; split.
    { apply not_true_iff_false; rewrite existsb_exists; intros [x [Hx Hx']].
      apply andb_true_iff in Hx'; destruct Hx' as [N1 N2].
      apply negb_true_iff in N1, N2; apply Z.eqb_neq in N1; apply memb_false in N2.
      apply N2, uniq_in, Hopp; auto; apply uniq_in; auto. }
    rewrite Hab; cbn [bind].
    rewrite bind_guard; split.
    { destruct ab; auto.
      assert (In a0 (filter (fun a => (0 <? a) && (a <? 90)) (uniq angles))) as Hin.
      { apply filter_In; split; [apply uniq_in; auto|].
        apply andb_true_iff; split; apply Z.ltb_lt; lia. }
      rewrite <- Hm in Hin; destruct Hin. }
    rewrite bind_guard; split; [|reflexivity].
    apply negb_false_iff, Nat.eqb_eq, uniq_nodup_length; exact Hnd.
Qed.

Lemma set_fibre_result angles r10 sa :
  set_fibre_orientations angles r10 = Ok sa ->
  fst sa = uniq angles /\ good_bal (uniq angles) (snd sa).
Proof.
  intros H0; pose proof (proj1 (set_fibre_spec angles r10) (ex_intro _ sa H0)) as Hg.
  destruct Hg as [Hnd [Hang [Hopp _]]].
  unfold set_fibre_orientations in H0.
  rewrite bind_guard in H0; destruct H0 as [_ H].
  rewrite bind_guard in H; destruct H as [_ H].
  rewrite bind_guard in H; destruct H as [_ H].
  apply bind_ok in H; destruct H as [ab [Hab H]].
  rewrite bind_guard in H; destruct H as [_ H].
  rewrite bind_guard in H; destruct H as [_ H].
  injection H as <-; cbn [fst snd]; split; auto.
  destruct (build_angles_bal_ok (uniq angles)
              (filter (fun a => (0 <? a) && (a <? 90)) (uniq angles))) as [ab' [Hab' [Hm Hi]]].
  { intros a Ha; apply filter_In in Ha; destruct Ha as [Ha Hb].
    apply andb_true_iff in Hb; destruct Hb as [Hb Hc]; apply Z.ltb_lt in Hb, Hc.
    split; auto; split; [|lia]. rewrite uniq_in in *; apply Hopp; auto; lia. }
  rewrite Hab in Hab'; injection Hab' as <-; split; auto.
Qed.

(** arguments accepted by the constructor (spec) *)
Definition pct_ok (p : Q) : Prop := (0 <= p /\ p <= 100)%Q.
Definition valid_args (a : cargs) : Prop :=
  (a_dam_tol a = true -> In (a_dam_tol_rule a) [1; 2; 3]%nat) /\
  (a_n_covering a <= 2)%nat /\
  (0 <= a_percent_Abdalla a <= abd_max)%Q /\
  pct_ok (a_percent_0 a) /\ pct_ok (a_percent_45 a) /\ pct_ok (a_percent_90 a) /\
  pct_ok (a_percent_135 a) /\ pct_ok (a_percent_45_135 a) /\
  (a_contig a = true -> a_n_contig a <> 1%nat) /\
  1 <= a_min_drop a /\
  good_angles (a_rule_10_percent a) (a_set_of_angles a).

Lemma pc_bad_false p : pc_bad p = false <-> pct_ok p.
Proof.
  unfold pc_bad, pct_ok; rewrite orb_false_iff, !Qltb_ge; tauto.
Qed.

Lemma mk_cons_valid a : (exists c, mk_cons a = Ok c) <-> valid_args a.
Proof.
  unfold mk_cons, valid_args.
  rewrite <- set_fibre_spec.
  split.
  - intros [c H].
    repeat (rewrite bind_guard in H; let G := fresh "G" in destruct H as [G H]).
    apply bind_ok in H; destruct H as [sa [Hsa H]].
    rewrite bind_guard in H; destruct H as [G9 _].
    repeat match goal with H : pc_bad _ = false |- _ => apply pc_bad_false in H end.
    apply orb_false_iff in G1; rewrite !Qltb_ge in G1.
    repeat split; try (match goal with H : pct_ok ?p |- _ => apply H end); try tauto.
    + intros Hd; rewrite Hd in G; cbn [andb] in G; apply negb_false_iff in G.
      apply existsb_exists in G; destruct G as [x [Hx E]]; apply Nat.eqb_eq in E; subst; auto.
    + apply negb_false_iff, existsb_exists in G0; destruct G0 as [x [Hx E]].
      apply Nat.eqb_eq in E; cbn in Hx; lia.
    + intros Hd; rewrite Hd in G7; cbn [andb] in G7; apply Nat.eqb_neq; exact G7.
    + apply Z.ltb_ge; exact G9.
    + eauto.
  - intros (V1 & V2 & V3 & V4 & V5 & V6 & V7 & V8 & V9 & V10 & [sa Hsa]).
    eexists; rewrite bind_guard; split.
    { destruct (a_dam_tol a); auto; cbn [andb]; apply negb_false_iff, existsb_exists.
      exists (a_dam_tol_rule a); split; [apply V1; auto | apply Nat.eqb_refl]. }
    rewrite bind_guard; split.
    { apply negb_false_iff, existsb_exists; exists (a_n_covering a);
        split; [cbn; lia | apply Nat.eqb_refl]. }
    rewrite bind_guard; split.
    { apply orb_false_iff; rewrite !Qltb_ge; exact V3. }
    do 5 (rewrite bind_guard; split; [apply pc_bad_false; assumption|]).
    rewrite bind_guard; split.
    { destruct (a_contig a); auto; cbn [andb]; apply Nat.eqb_neq; auto. }
    rewrite Hsa; cbn [bind].
    rewrite bind_guard; split; [apply Z.ltb_ge; exact V10|].
    reflexivity.
Qed.

(** consistency of the object (spec) *)
Record consistent (c : cons) : Prop := {
  k_damtol_on : dam_tol c = true ->
     covering c = true /\
     ((dam_tol_rule c = 1%nat /\ (1 <= n_covering c)%nat) \/
      ((dam_tol_rule c = 2%nat \/ dam_tol_rule c = 3%nat) /\ n_covering c = 2%nat));
  k_damtol_off : dam_tol c = false -> dam_tol_rule c = 0%nat;
  k_cover : covering c = true -> (1 <= n_covering c)%nat;
  k_ncover : (n_covering c <= 2)%nat;
  k_diso : diso c = false -> delta_angle c = 180;
  k_contig_off : contig c = false -> n_contig c = 1%nat /\ n_contig_c c = None;
  k_contig_on : contig c = true -> n_contig c <> 1%nat /\ n_contig_c c = Some (n_contig c);
  k_pct_off : rule_10_percent c = false \/ rule_10_Abdalla c = true ->
     (percent_0 c == 0 /\ percent_45 c == 0 /\ percent_90 c == 0 /\ percent_135 c == 0 /\
      percent_45_135 c == 0 /\ percent_tot c == 0)%Q;
  k_abd_off : rule_10_percent c = false \/ rule_10_Abdalla c = false ->
     (percent_Abdalla c == 0)%Q;
  k_pct : (0 <= percent_0 c <= 1 /\ 0 <= percent_45 c <= 1 /\ 0 <= percent_90 c <= 1 /\
           0 <= percent_135 c <= 1 /\ 0 <= percent_45_135 c <= 1)%Q;
  k_abd : (0 <= percent_Abdalla c < 1 # 4)%Q;
  k_one45 : (percent_45_135 c == 0 \/ (percent_45 c == 0 /\ percent_135 c == 0))%Q;
  k_tot : (0 < percent_tot c <->
           (0 < percent_0 c \/ 0 < percent_45 c \/ 0 < percent_90 c \/
            0 < percent_135 c \/ 0 < percent_45_135 c))%Q;
  k_set_sorted : StronglySorted Z.lt (set_of_angles c);
  k_set : good_angles (rule_10_percent c) (set_of_angles c);
  k_bal : good_bal (set_of_angles c) (angles_bal c);
  k_min_drop : 1 <= min_drop c;
  k_ipo : ipo c = bal c
}.

Lemma good_angles_uniq r l : good_angles r l -> good_angles r (uniq l).
Proof.
  intros (H1 & H2 & H3 & [a [H4 H4']] & H5).
  split; [apply uniq_nodup|].
  split.
  { apply Forall_forall; intros x Hx.
    rewrite Forall_forall in H2; apply H2; apply (uniq_in l x); exact Hx. }
  split; [intros y Hy Hn; rewrite uniq_in in *; auto|].
  split; [exists a; rewrite uniq_in; auto|].
  intros Hr; rewrite !uniq_in; auto.
Qed.

Lemma Qmaxb_pos x y : (0 < Qmaxb x y <-> 0 < x \/ 0 < y)%Q.
Proof.
  unfold Qmaxb; destruct (Qltb x y) eqn:E; [apply Qltb_lt in E | apply Qltb_ge in E];
    split; intros; try tauto; destruct H; lra.
Qed.

Lemma div100 p : (p / 100 == p * (1 # 100))%Q.
Proof. unfold Qdiv; reflexivity. Qed.

Lemma mk_cons_consistent a c : mk_cons a = Ok c -> consistent c.
Proof.
  intros H0; pose proof (proj1 (mk_cons_valid a) (ex_intro _ c H0)) as V.
  destruct V as (V1 & V2 & V3 & V4 & V5 & V6 & V7 & V8 & V9 & V10 & V11).
  unfold mk_cons in H0.
  repeat (rewrite bind_guard in H0; let G := fresh "G" in destruct H0 as [G H0]).
  apply bind_ok in H0; destruct H0 as [sa [Hsa H0]].
  rewrite bind_guard in H0; destruct H0 as [G9 H0].
  apply set_fibre_result in Hsa; destruct Hsa as [Hs Hb].
  injection H0 as <-; unfold pct_ok in *.
  clear G G0 G1 G2 G3 G4 G5 G6 G7 G9.
  constructor; cbn -[Nat.max].
  - intros Hd; rewrite Hd in *; split; auto.
    destruct (V1 eq_refl) as [E|[E|[E|[]]]]; rewrite <- E; cbn [Nat.eqb]; lia.
  - intros ->; auto.
  - destruct (a_dam_tol a); [lia|]; intros ->; lia.
  - destruct (a_dam_tol a) eqn:Hd.
    + destruct (Nat.eqb _ 1); lia.
    + destruct (a_covering a); lia.
  - intros ->; auto.
  - intros ->; auto.
  - intros Hd; rewrite Hd; split; auto.
  - intros Hr.
    assert (a_rule_10_percent a && negb (a_rule_10_Abdalla a) = false)%bool as ->.
    { destruct Hr as [->| ->]; [reflexivity | apply andb_false_r]. }
    repeat split; reflexivity.
  - intros Hr; assert (a_rule_10_percent a && a_rule_10_Abdalla a = false)%bool as ->.
    { destruct Hr as [->| ->]; [reflexivity | apply andb_false_r]. }
    reflexivity.
  - rewrite ?div100; destruct (a_rule_10_percent a && negb (a_rule_10_Abdalla a))%bool, (combine a);
      rewrite ?div100; repeat split; lra.
  - destruct (a_rule_10_percent a && a_rule_10_Abdalla a)%bool; rewrite ?div100;
      unfold abd_max in V3; lra.
  - destruct (a_rule_10_percent a && negb (a_rule_10_Abdalla a))%bool, (combine a);
      rewrite ?div100; first [left; lra | right; split; lra].
  - destruct (a_rule_10_percent a && negb (a_rule_10_Abdalla a))%bool.
    + rewrite Qmaxb_pos; destruct (combine a); rewrite !div100; split; intros H.
      * destruct (Qlt_le_dec 0 (a_percent_0 a)); [left; lra|].
        destruct (Qlt_le_dec 0 (a_percent_90 a)); [right; right; left; lra|].
        do 4 right; destruct H; lra.
      * right; lra.
      * destruct (Qlt_le_dec 0 (a_percent_0 a)); [left; lra|].
        destruct (Qlt_le_dec 0 (a_percent_90 a)); [right; right; left; lra|].
        destruct (Qlt_le_dec 0 (a_percent_45 a)); [right; left; lra|].
        do 3 right; left; destruct H; lra.
      * left; lra.
    + lra.
  - rewrite Hs; apply uniq_ssorted.
  - rewrite Hs; apply good_angles_uniq; exact V11.
  - rewrite Hs; exact Hb.
  - exact V10.
  - reflexivity.
Qed.
