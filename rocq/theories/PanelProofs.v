(* PanelProofs.v - lemmas about the model of Panel.v *)
From Verif Require Import Base Constraints Panel.
From Coq Require Import Lqa.
Local Open Scope Z_scope.

Lemma only_standard_true set : only_standard set = true <-> (forall a, In a set <-> In a [0; 45; -45; 90]).
Proof.
  unfold only_standard. rewrite andb_true_iff, !forallb_forall. split.
  - intros [A B] a. split; intros H.
    + apply memb_true, A, H.
    + apply memb_true, B, H.
  - intros H. split; intros a Ha; apply memb_true, H, Ha.
Qed.

Lemma twelve {A} (w : list A) : length w = 12%nat ->
  exists a b c d e f g h i j k l, w = [a; b; c; d; e; f; g; h; i; j; k; l].
Proof.
  intros H. do 12 (destruct w as [|? w]; [discriminate H|]). destruct w; [|discriminate H].
  do 12 eexists. reflexivity.
Qed.

(** components cleared by the guidelines *)
Definition clearedb (c : cons) (i : nat) : bool :=
  ((sym c && (4 <=? i)%nat && (i <? 8)%nat)
  || (only_standard (set_of_angles c) && ((i =? 3)%nat || (i =? 7)%nat || (i =? 11)%nat))
  || (bal c && ((i =? 2)%nat || (i =? 3)%nat))
  || (oopo c && ((i =? 10)%nat || (i =? 11)%nat)))%bool.

Lemma clear_spec c w : length w = 12%nat ->
  exists w', clear_weightings c w = Ok w' /\ length w' = 12%nat /\
  forall i, nth i w' 0%Q = if clearedb c i then 0%Q else nth i w 0%Q.
Proof.
  intros H. destruct (twelve w H) as [x0 [x1 [x2 [x3 [x4 [x5 [x6 [x7 [x8 [x9 [x10 [x11 ->]]]]]]]]]]]].
  unfold clear_weightings, clearedb. destruct (sym c), (only_standard _), (bal c), (oopo c);
    (eexists; split; [reflexivity|]; split; [reflexivity|]; intros i;
     do 12 (destruct i as [|i]; [reflexivity|]); cbn [nth andb orb Nat.leb Nat.ltb Nat.eqb]; destruct i; reflexivity).
Qed.

Lemma sumQ_nonneg l : (forall x, In x l -> 0 <= x)%Q -> (0 <= sumQ l)%Q.
Proof.
  induction l as [|x l IH]; intros H; [apply Qle_refl|].
  change (0 <= x + sumQ l)%Q. pose proof (H x (or_introl eq_refl)).
  pose proof (IH (fun y Hy => H y (or_intror Hy))). lra.
Qed.

Lemma sumQ_pos l x : (forall x, In x l -> 0 <= x)%Q -> In x l -> (0 < x)%Q -> (0 < sumQ l)%Q.
Proof.
  induction l as [|y l IH]; intros H I P; [destruct I|].
  change (0 < y + sumQ l)%Q. pose proof (H y (or_introl eq_refl)).
  pose proof (sumQ_nonneg l (fun y Hy => H y (or_intror Hy))).
  destruct I as [->|I]; [lra|]. pose proof (IH (fun y Hy => H y (or_intror Hy)) I P). lra.
Qed.

Lemma sumQ_zero l : (forall x, In x l -> x == 0)%Q -> (sumQ l == 0)%Q.
Proof.
  induction l as [|x l IH]; intros H; [reflexivity|].
  change (x + sumQ l == 0)%Q. rewrite (H x (or_introl eq_refl)), IH by (intros; apply H; right; auto). reflexivity.
Qed.

Lemma sumQ_scale k l : (sumQ (map (fun x => x / k) l) == sumQ l / k)%Q.
Proof.
  induction l as [|x l IH]; [unfold Qdiv; cbn; ring|].
  change (x / k + sumQ (map (fun x => x / k) l) == (x + sumQ l) / k)%Q. rewrite IH. unfold Qdiv. ring.
Qed.

Lemma sumQ_non_zero l : (sumQ (non_zero l) == sumQ l)%Q.
Proof.
  induction l as [|x l IH]; [reflexivity|]. unfold non_zero in *. cbn [filter].
  destruct (Qeq_bool x 0) eqn:E; cbn [negb].
  - apply Qeq_bool_eq in E. change (sumQ (x :: l)) with (x + sumQ l)%Q. rewrite IH, E. ring.
  - change (x + sumQ (filter (fun x => negb (Qeq_bool x 0)) l) == x + sumQ l)%Q. rewrite IH. reflexivity.
Qed.

Lemma in_non_zero x l : In x (non_zero l) <-> In x l /\ ~ (x == 0)%Q.
Proof.
  unfold non_zero. rewrite filter_In, negb_true_iff. split; intros [A B]; split; auto.
  - intros C. apply Qeq_eq_bool in C. congruence.
  - destruct (Qeq_bool x 0) eqn:E; auto. apply Qeq_bool_eq in E. contradiction.
Qed.

Lemma upd_nth (l : list Q) i v j : (i < length l)%nat -> nth j (upd i v l) 0%Q = if (j =? i)%nat then v else nth j l 0%Q.
Proof.
  revert i j. induction l as [|x l IH]; intros i j H; cbn in H; [lia|].
  destruct i, j; cbn; auto. apply IH. lia.
Qed.

Lemma upd_len (l : list Q) i v : length (upd i v l) = length l.
Proof. apply upd_length. Qed.

(** what happens after the clearing *)
Definition oopo_value (c : cons) (coeff : Q) (w' : list Q) (i : nat) : Q :=
  if (oopo c && ((i =? 10)%nat || ((i =? 11)%nat && negb (only_standard (set_of_angles c)))))%bool then
    match average (non_zero w') with Some m => (m * coeff)%Q | None => 0%Q end
  else nth i w' 0%Q.

Lemma filter_weightings_spec c coeff w : length w = 12%nat ->
  exists w', clear_weightings c w = Ok w' /\ length w' = 12%nat /\
  (forall i, nth i w' 0%Q = if clearedb c i then 0%Q else nth i w 0%Q) /\
  exists w2, length w2 = 12%nat /\ (forall i, nth i w2 0%Q = oopo_value c coeff w' i) /\
  (filter_weightings c coeff w =
    if (oopo c && match non_zero w' with [] => true | _ => false end)%bool then Ok None
    else if Qeq_bool (sumQ w2) 0 then Ok None else Ok (Some (map (fun x => x / sumQ w2)%Q w2))).
Proof.
  intros H. destruct (clear_spec c w H) as [w' [E [L N]]]. exists w'. do 3 (split; auto).
  unfold filter_weightings, oopo_value. rewrite E. cbn [bind].
  destruct (oopo c); cbn [andb].
  2:{ exists w'. split; auto. }
  destruct (non_zero w') as [|n0 n] eqn:EN.
  { cbn [average]. exists (if only_standard (set_of_angles c) then upd 10 0%Q w' else upd 11 0%Q (upd 10 0%Q w')).
    split; [destruct (only_standard _); rewrite !upd_len; auto|]. split; auto.
    intros i. destruct (only_standard _); cbn [negb].
    - rewrite upd_nth by lia. rewrite andb_false_r, orb_false_r. destruct (i =? 10)%nat; auto.
    - rewrite upd_nth by (rewrite upd_len; lia). rewrite upd_nth by lia. rewrite andb_true_r.
      destruct (i =? 11)%nat; [rewrite orb_true_r; auto|]. rewrite orb_false_r. destruct (i =? 10)%nat; auto. }
  cbn [average]. set (m := (sumQ (n0 :: n) / inject_Z (zlen (n0 :: n)))%Q). clearbody m.
  unfold set_at. destruct (only_standard (set_of_angles c)); cbn [negb].
  - rewrite L. cbn [Nat.ltb Nat.leb bind]. exists (upd 10 (m * coeff)%Q w'). split; [rewrite upd_len; auto|]. split; auto.
    intros i. rewrite upd_nth by lia. rewrite andb_false_r, orb_false_r. auto.
  - rewrite L. cbn [Nat.ltb Nat.leb bind]. rewrite upd_len, L. cbn [Nat.ltb Nat.leb bind].
    exists (upd 11 (m * coeff)%Q (upd 10 (m * coeff)%Q w')). split; [rewrite !upd_len; auto|]. split; auto.
    intros i. rewrite upd_nth by (rewrite upd_len; lia). rewrite upd_nth by lia. rewrite andb_true_r.
    destruct (i =? 11)%nat; [rewrite orb_true_r; auto|]. rewrite orb_false_r. auto.
Qed.

(** zero_slice and the target filter *)
Lemma zero_slice_length a b l : (a <= b)%nat -> length (zero_slice a b l) = length l.
Proof.
  intros H. unfold zero_slice, slice. rewrite !app_length, map_length, !firstn_length, !skipn_length. lia.
Qed.

Lemma zero_slice_nth a b l i : (a <= b)%nat ->
  nth i (zero_slice a b l) 0%Q = if ((a <=? i)%nat && (i <? b)%nat)%bool then 0%Q else nth i l 0%Q.
Proof.
  intros H. revert a b i H. induction l as [|x l IH]; intros a b i H.
  - unfold zero_slice, slice. rewrite !firstn_nil, !skipn_nil. cbn [map app firstn]. rewrite !firstn_nil. cbn.
    destruct i; destruct (_ && _)%bool; reflexivity.
  - destruct a as [|a].
    + unfold zero_slice, slice. rewrite Nat.sub_0_r. cbn [firstn skipn app Nat.max Nat.leb andb].
      destruct b as [|b]; [reflexivity|]. cbn [firstn map app skipn].
      destruct i as [|i]; [reflexivity|]. cbn [nth].
      specialize (IH 0%nat b i (Nat.le_0_l _)). unfold zero_slice, slice in IH. rewrite Nat.sub_0_r in IH.
      cbn [firstn skipn app Nat.max Nat.leb andb] in IH. rewrite IH. reflexivity.
    + destruct b as [|b]; [lia|]. unfold zero_slice, slice. cbn [firstn app Nat.max skipn Nat.sub].
      destruct i as [|i]; [reflexivity|]. cbn [nth].
      specialize (IH a b i (le_S_n _ _ H)). unfold zero_slice, slice in IH. rewrite IH. reflexivity.
Qed.

Lemma set_at_nth i v l l' : set_at i v l = Ok l' ->
  (i < length l)%nat /\ length l' = length l /\ forall j, nth j l' 0%Q = if (j =? i)%nat then v else nth j l 0%Q.
Proof.
  unfold set_at. destruct (i <? length l)%nat eqn:E; [|discriminate]. apply Nat.ltb_lt in E.
  intros H. injection H as <-. split; auto. split; [apply upd_len|]. intros j. apply upd_nth, E.
Qed.

Definition target_clearedb (c : cons) (i : nat) : bool :=
  ((sym c && (4 <=? i)%nat && (i <? 8)%nat) || (bal c && ((i =? 2)%nat || (i =? 3)%nat))
   || (oopo c && ((i =? 10)%nat || (i =? 11)%nat)))%bool.

Lemma filter_target_spec c t t' : filter_target c t = Ok t' ->
  length t' = length t /\ forall i, nth i t' 0%Q = if target_clearedb c i then 0%Q else nth i t 0%Q.
Proof.
  unfold filter_target. set (t0 := if sym c then _ else t).
  assert (A : length t0 = length t /\ forall i, nth i t0 0%Q = if (sym c && (4 <=? i)%nat && (i <? 8)%nat)%bool then 0%Q else nth i t 0%Q).
  { unfold t0. destruct (sym c); [|auto]. split; [rewrite !zero_slice_length; lia|].
    intros i. rewrite !zero_slice_nth by lia. cbn [andb]. destruct (_ && _)%bool; auto. }
  clearbody t0. destruct A as [L0 N0].
  destruct (if bal c then _ else _) as [t1|e] eqn:E1; cbn [bind]; [|discriminate].
  assert (A : length t1 = length t /\ forall i, nth i t1 0%Q = if ((sym c && (4 <=? i)%nat && (i <? 8)%nat) || (bal c && ((i =? 2)%nat || (i =? 3)%nat)))%bool then 0%Q else nth i t 0%Q).
  { destruct (bal c).
    - destruct (set_at 2 0 t0) as [u|] eqn:EU; cbn [bind] in E1; [|discriminate].
      apply set_at_nth in EU as [_ [LU NU]]. apply set_at_nth in E1 as [_ [LV NV]].
      split; [congruence|]. intros i. rewrite NV, NU, N0. cbn [andb].
      destruct (i =? 3)%nat; [rewrite !orb_true_r; auto|]. destruct (i =? 2)%nat; [rewrite !orb_true_r; auto|].
      rewrite !orb_false_r. auto.
    - injection E1 as <-. split; auto. intros i. rewrite N0. rewrite orb_false_r. auto. }
  destruct A as [L1 N1]. unfold target_clearedb. destruct (oopo c).
  - destruct (set_at 10 0 t1) as [u|] eqn:EU; cbn [bind]; [|discriminate].
    apply set_at_nth in EU as [_ [LU NU]]. intros EV. apply set_at_nth in EV as [_ [LV NV]].
    split; [congruence|]. intros i. rewrite NV, NU, N1. cbn [andb].
    destruct (i =? 11)%nat; [rewrite !orb_true_r; auto|]. destruct (i =? 10)%nat; [rewrite !orb_true_r; auto|].
    rewrite !orb_false_r. auto.
  - intros H. injection H as <-. split; auto. intros i. rewrite N1, orb_false_r. auto.
Qed.

Lemma filter_target_ok c t : length t = 12%nat -> exists t', filter_target c t = Ok t'.
Proof.
  intros H. destruct (twelve t H) as [x0 [x1 [x2 [x3 [x4 [x5 [x6 [x7 [x8 [x9 [x10 [x11 ->]]]]]]]]]]]].
  unfold filter_target. destruct (sym c), (bal c), (oopo c); eexists; reflexivity.
Qed.

Lemma nth_error_upd {A} (l : list A) i v j : (i < length l)%nat ->
  nth_error (upd i v l) j = if (j =? i)%nat then Some v else nth_error l j.
Proof.
  revert i j. induction l as [|x l IH]; intros i j H; cbn in H; [lia|].
  destruct i, j; cbn; auto. apply IH. lia.
Qed.

(** [same c t t'] : t' is the filtered t *)
Definition filtered (c : cons) (t t' : list Q) : Prop :=
  length t' = length t /\ forall i, nth i t' 0%Q = if target_clearedb c i then 0%Q else nth i t 0%Q.

Lemma filtered_twice c t u v : filtered c t u -> filtered c u v -> filtered c t v.
Proof.
  intros [L1 N1] [L2 N2]. split; [congruence|]. intros i. rewrite N2, N1. destruct (target_clearedb c i); auto.
Qed.

Lemma filter_targets_spec c refs heap heap' : filter_targets c refs heap = Ok heap' ->
  length heap' = length heap /\
  forall r t, nth_error heap r = Some t ->
    exists t', nth_error heap' r = Some t' /\
      (if existsb (Nat.eqb r) refs then filtered c t t' else t' = t).
Proof.
  revert heap. induction refs as [|r0 refs IH]; intros heap H; cbn [filter_targets] in H.
  - injection H as <-. split; auto. intros r t E. exists t. split; [exact E|reflexivity].
  - destruct (nth_error heap r0) as [t0|] eqn:E0; [|discriminate].
    destruct (filter_target c t0) as [t1|] eqn:E1; cbn [bind] in H; [|discriminate].
    assert (B : (r0 < length heap)%nat) by (apply nth_error_Some; congruence).
    apply IH in H as [L H]. rewrite upd_length in L. split; auto.
    intros r t E. cbn [existsb]. specialize (H r). rewrite nth_error_upd in H by auto.
    apply filter_target_spec in E1. destruct (Nat.eqb r r0) eqn:ER.
    + apply Nat.eqb_eq in ER. subst r0. assert (t0 = t) as -> by congruence.
      destruct (H t1 eq_refl) as [t' [E' F]]. exists t'. split; auto. cbn [orb].
      destruct (existsb _ refs); [eapply filtered_twice; eauto|subst; exact E1].
    + cbn [orb]. apply (H t E).
Qed.

Lemma filter_targets_ok c refs heap : (forall r, In r refs -> (r < length heap)%nat) ->
  (forall t, In t heap -> length t = 12%nat) -> exists heap', filter_targets c refs heap = Ok heap'.
Proof.
  revert heap. induction refs as [|r refs IH]; intros heap B T; [exists heap; auto|].
  cbn [filter_targets]. pose proof (B r (or_introl eq_refl)) as Br.
  destruct (nth_error heap r) as [t|] eqn:E; [|apply nth_error_None in E; lia].
  destruct (filter_target_ok c t (T t (nth_error_In _ _ E))) as [t' Et]. rewrite Et. cbn [bind].
  apply IH.
  - intros s Hs. rewrite upd_length. apply B. right. auto.
  - intros u Hu. apply In_nth_error in Hu as [k Hk]. rewrite nth_error_upd in Hk by auto.
    destruct (k =? r)%nat.
    + injection Hk as <-. apply filter_target_spec in Et as [L _]. rewrite L. apply T. eapply nth_error_In; eauto.
    + apply T. eapply nth_error_In; eauto.
Qed.

Lemma average_nonneg l m : average l = Some m -> (forall x, In x l -> 0 <= x)%Q -> (0 <= m)%Q.
Proof.
  intros A H. destruct l as [|x l]; [discriminate|].
  assert (m = sumQ (x :: l) / inject_Z (zlen (x :: l)))%Q as -> by (unfold average in A; congruence).
  apply Qle_shift_div_l; [unfold zlen, Qlt; cbn -[Z.of_nat]; lia|].
  rewrite Qmult_0_l. apply sumQ_nonneg, H.
Qed.
