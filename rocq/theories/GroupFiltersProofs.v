(* GroupFiltersProofs.v - the row filters keep exactly the good rows. *)
From Verif Require Import Base Constraints Guidelines SpecGuidelines GuidelinesProofs GroupFilters.
Local Open Scope Z_scope.

(** the rows of the second matrix at the places where the first one has a good row *)
Definition in_step_rows (p : list Z -> bool) (a a2 : rows) : rows :=
  map snd (filter (fun xy => p (fst xy)) (List.combine a a2)).

Lemma firstn_snoc {A} (d : A) k (l : list A) : (k < length l)%nat -> firstn (S k) l = firstn k l ++ [nth k l d].
Proof.
  revert l; induction k as [|k IH]; intros [|x l] H; cbn in *; try lia; auto.
  rewrite <- IH by lia; reflexivity.
Qed.
Lemma skipn_cons {A} (d : A) k (l : list A) : (k < length l)%nat -> skipn k l = nth k l d :: skipn (S k) l.
Proof.
  revert l; induction k as [|k IH]; intros [|x l] H; cbn in *; try lia; auto.
  rewrite IH by lia; reflexivity.
Qed.
Lemma firstn_del {A} k (l : list A) : (k < length l)%nat -> firstn k (del k l) = firstn k l.
Proof.
  intros H; rewrite del_spec, firstn_app, firstn_firstn, firstn_length.
  replace (k - Nat.min k (length l))%nat with 0%nat by lia; cbn [firstn].
  rewrite app_nil_r; f_equal; lia.
Qed.
Lemma skipn_del {A} k (l : list A) : (k < length l)%nat -> skipn k (del k l) = skipn (S k) l.
Proof.
  intros H; rewrite del_spec, skipn_app, firstn_length.
  replace (k - Nat.min k (length l))%nat with 0%nat by lia.
  rewrite skipn_all2 by (rewrite firstn_length; lia); reflexivity.
Qed.
Lemma combine_app {A B} (a a' : list A) (b b' : list B) :
  length a = length b -> List.combine (a ++ a') (b ++ b') = List.combine a b ++ List.combine a' b'.
Proof. revert b; induction a as [|x a IH]; intros [|y b] H; cbn in *; try lia; auto; f_equal; apply IH; lia. Qed.

Lemma sweep_spec bad st k : forall a a2,
  (k <= length a)%nat ->
  (st = true -> forall m, a2 = Some m -> length m = length a) ->
  sweep bad st k a a2 =
  (filter (fun r => negb (bad r)) (firstn k a) ++ skipn k a,
   if st then option_map (fun m => in_step_rows (fun r => negb (bad r)) (firstn k a) (firstn k m) ++ skipn k m) a2 else a2).
Proof.
  induction k as [|k IH]; intros a a2 Hk H2.
  - cbn; f_equal. destruct st; [destruct a2; reflexivity|reflexivity].
  - assert (Hd : length (del k a) = (length a - 1)%nat).
    { rewrite del_spec, app_length, firstn_length, skipn_length; lia. }
    cbn [sweep]. rewrite (firstn_snoc [] k a) by lia. rewrite filter_app. cbn [filter].
    destruct (bad (nth k a [])) eqn:E; cbn [negb].
    + destruct st.
      * specialize (H2 eq_refl).
        rewrite IH; [|lia|].
        2:{ intros _ m Hm; destruct a2 as [m0|]; [|discriminate]; cbn in Hm; injection Hm as <-.
            specialize (H2 m0 eq_refl); rewrite Hd, del_spec, app_length, firstn_length, skipn_length; lia. }
        rewrite firstn_del, skipn_del by lia. rewrite app_nil_r; f_equal.
        destruct a2 as [m|]; [|reflexivity]; cbn [option_map]; f_equal.
        specialize (H2 m eq_refl). rewrite firstn_del, skipn_del by lia.
        rewrite (firstn_snoc [] k m) by lia. unfold in_step_rows.
        rewrite combine_app by (rewrite !firstn_length; lia). rewrite filter_app; cbn [List.combine filter fst].
        rewrite E; cbn [negb]. rewrite app_nil_r; reflexivity.
      * rewrite IH; [|lia|discriminate].
        rewrite firstn_del, skipn_del by lia. rewrite app_nil_r; reflexivity.
    + rewrite IH by (auto; lia).
      rewrite (skipn_cons [] k a) by lia. rewrite <- app_assoc; cbn [app]; f_equal.
      destruct st; [|reflexivity]. specialize (H2 eq_refl).
      destruct a2 as [m|]; [|reflexivity]; cbn [option_map]; f_equal.
      specialize (H2 m eq_refl). rewrite (firstn_snoc [] k m), (skipn_cons [] k m) by lia.
      unfold in_step_rows. rewrite combine_app by (rewrite !firstn_length; lia).
      rewrite filter_app; cbn [List.combine filter fst]. rewrite E; cbn [negb].
      rewrite map_app, <- app_assoc; reflexivity.
Qed.

Definition step_ok (st : bool) (p : rows * option rows) : Prop :=
  st = true -> forall m, snd p = Some m -> length m = length (fst p).

Lemma sweep_all_spec bad st p : step_ok st p ->
  sweep_all bad st p =
  (filter (fun r => negb (bad r)) (fst p),
   if st then option_map (in_step_rows (fun r => negb (bad r)) (fst p)) (snd p) else snd p).
Proof.
  intros H; unfold sweep_all. rewrite sweep_spec by (auto; lia).
  rewrite firstn_all, skipn_all, app_nil_r; f_equal.
  destruct st; [|reflexivity]. destruct (snd p) as [m|] eqn:E; [|reflexivity]; cbn [option_map]; f_equal.
  rewrite <- (H eq_refl m E), firstn_all, skipn_all, app_nil_r; reflexivity.
Qed.

Lemma in_step_length p a m : length m = length a -> length (in_step_rows p a m) = length (filter p a).
Proof.
  unfold in_step_rows; rewrite map_length; revert m; induction a as [|x a IH]; intros [|y m] H; cbn in *; try lia.
  destruct (p x); cbn; rewrite IH by lia; reflexivity.
Qed.
Lemma in_step_twice p q a m : length m = length a ->
  in_step_rows q (filter p a) (in_step_rows p a m) = in_step_rows (fun r => p r && q r)%bool a m.
Proof.
  unfold in_step_rows; revert m; induction a as [|x a IH]; intros [|y m] H; cbn in *; try lia; auto.
  destruct (p x) eqn:E; cbn [map filter List.combine fst snd andb].
  - destruct (q x) eqn:F; cbn [map snd]; [f_equal|]; apply IH; lia.
  - apply IH; lia.
Qed.
Lemma in_step_ext p q a m : length m = length a -> (forall r, In r a -> p r = q r) -> in_step_rows p a m = in_step_rows q a m.
Proof.
  unfold in_step_rows; revert m; induction a as [|x a IH]; intros [|y m] H E; cbn in *; try lia; auto.
  rewrite (E x (or_introl eq_refl)); destruct (q x); cbn; [f_equal|]; apply IH; auto; lia.
Qed.
Lemma filter_ext_in' {A} (p q : A -> bool) l : (forall x, In x l -> p x = q x) -> filter p l = filter q l.
Proof. induction l as [|x l IH]; intros H; cbn; auto. rewrite (H x (or_introl eq_refl)), IH; auto; intros y Hy; apply H; now right. Qed.
Lemma filter_and {A} (p q : A -> bool) l : filter q (filter p l) = filter (fun x => p x && q x)%bool l.
Proof. induction l as [|x l IH]; cbn; auto. destruct (p x); cbn; [destruct (q x)|]; rewrite ?IH; auto. Qed.
Lemma filter_true' {A} (l : list A) : filter (fun _ => true) l = l.
Proof. induction l; cbn; congruence. Qed.
Lemma in_step_true a m : length m = length a -> in_step_rows (fun _ => true) a m = m.
Proof. unfold in_step_rows; rewrite filter_true'; revert m; induction a; intros [|y m] H; cbn in *; try lia; auto; f_equal; auto. Qed.

(** a pair of matrices is filtered by [p] *)
Definition filtered (st : bool) (p : list Z -> bool) (x : rows * option rows) : rows * option rows :=
  (filter p (fst x), if st then option_map (in_step_rows p (fst x)) (snd x) else snd x).

Lemma filtered_step st p x : step_ok st x -> step_ok st (filtered st p x).
Proof.
  intros H Hs m E; subst st; cbn in E. destruct (snd x) as [m0|] eqn:F; [|discriminate]; cbn in E; injection E as <-.
  cbn [fst]. apply in_step_length. exact (H eq_refl m0 F).
Qed.
Lemma filtered_twice st p q x : step_ok st x -> filtered st q (filtered st p x) = filtered st (fun r => p r && q r)%bool x.
Proof.
  intros H; unfold filtered; cbn [fst snd]; rewrite filter_and; f_equal.
  destruct st; [|reflexivity]. destruct (snd x) as [m|] eqn:F; [|reflexivity]; cbn [option_map]; f_equal.
  apply in_step_twice; exact (H eq_refl m F).
Qed.
Lemma filtered_ext st p q x : step_ok st x -> (forall r, In r (fst x) -> p r = q r) -> filtered st p x = filtered st q x.
Proof.
  intros H E; unfold filtered; rewrite (filter_ext_in' p q) by exact E; f_equal.
  destruct st; [|reflexivity]. destruct (snd x) as [m|] eqn:F; [|reflexivity]; cbn [option_map]; f_equal.
  apply in_step_ext; [exact (H eq_refl m F)|exact E].
Qed.
Lemma filtered_true st x : step_ok st x -> filtered st (fun _ => true) x = x.
Proof.
  intros H; unfold filtered; rewrite filter_true'. destruct x as [a a2]; cbn [fst snd] in *; f_equal.
  destruct st; [|reflexivity]. destruct a2 as [m|]; [|reflexivity]; cbn [option_map]; f_equal.
  apply in_step_true; exact (H eq_refl m eq_refl).
Qed.
Lemma sweep_all_filtered bad st x : step_ok st x -> sweep_all bad st x = filtered st (fun r => negb (bad r)) x.
Proof. apply sweep_all_spec. Qed.

(** *** the tests *)
Lemma negb_existsb {A} (f : A -> bool) l : negb (existsb f l) = forallb (fun x => negb (f x)) l.
Proof. induction l as [|x l IH]; cbn; auto. rewrite negb_orb, IH; reflexivity. Qed.

Lemma contig_bad_spec second n w r : (2 <= n <= 6)%nat -> length r = w ->
  (negb (contig_bad second n w r) = true <-> contig_stack n r).
Proof.
  intros Hn <-; unfold contig_bad; rewrite negb_existsb; destruct second.
  - apply (contig_scan_spec contig_window); intros g; apply contig_window_spec; exact Hn.
  - apply (contig_scan_spec contig_window2); intros g; apply contig_window2_spec.
Qed.

Lemma adjacent_nth l a b : adjacent l a b <-> exists i, (S i < length l)%nat /\ nth i l 0 = a /\ nth (S i) l 0 = b.
Proof.
  split.
  - intros [l1 [l2 ->]]; exists (length l1); rewrite app_length; cbn [length]; split; [lia|].
    rewrite !app_nth2 by lia; replace (length l1 - length l1)%nat with 0%nat by lia.
    replace (S (length l1) - length l1)%nat with 1%nat by lia; split; reflexivity.
  - intros [i [Hi [Ha Hb]]]; exists (firstn i l), (skipn (S (S i)) l).
    rewrite <- (firstn_skipn i l) at 1; f_equal.
    rewrite (skipn_cons 0 i), (skipn_cons 0 (S i)) by lia; congruence.
Qed.

Lemma diso_bad_spec delta w r : length r = w -> Forall angle_ok r ->
  (negb (diso_bad delta w r) = true <-> diso_stack delta r).
Proof.
  intros <- Hr; unfold diso_bad; rewrite negb_existsb, forallb_seq; unfold diso_stack; split.
  - intros H a b Hab; apply adjacent_nth in Hab; destruct Hab as [i [Hi [<- <-]]].
    specialize (H i ltac:(lia)); rewrite negb_involutive in H. rewrite Nat.add_1_r, is_diso_comm in H.
    apply is_diso_spec in H; auto; rewrite Forall_forall in Hr; apply Hr, nth_In; lia.
  - intros H i Hi; rewrite negb_involutive, Nat.add_1_r, is_diso_comm.
    apply is_diso_spec; [rewrite Forall_forall in Hr; apply Hr, nth_In; lia|rewrite Forall_forall in Hr; apply Hr, nth_In; lia|].
    apply H, adjacent_nth; exists i; repeat split; lia.
Qed.

Lemma internal_contig_part_spec c w x :
  (contig c = true -> (2 <= n_contig c <= 6)%nat) -> step_ok true x ->
  (forall r, In r (fst x) -> length r = w) ->
  exists p, internal_contig_part c w x = Ok (filtered true p x) /\
    forall r, length r = w -> (p r = true <-> (contig c = true -> contig_stack (n_contig c) r)).
Proof.
  intros Hn Hx Hw; unfold internal_contig_part; destruct (contig c) eqn:Ec.
  2:{ exists (fun _ => true); rewrite filtered_true by exact Hx; split; [reflexivity|]; intros r _; split; [discriminate|auto]. }
  specialize (Hn eq_refl). destruct (Nat.ltb_spec (n_contig c) w) as [L|L].
  - replace (Nat.leb 2 (n_contig c) && Nat.leb (n_contig c) 6)%bool with true
      by (symmetry; apply andb_true_iff; split; apply Nat.leb_le; lia).
    eexists; rewrite sweep_all_filtered by exact Hx; split; [reflexivity|].
    intros r Hr; rewrite contig_bad_spec by auto; split; auto.
  - exists (fun _ => true); rewrite filtered_true by exact Hx; split; [reflexivity|].
    intros r Hr; split; auto; intros _ _; apply contig_short; lia.
Qed.

(** *** the joint *)
Lemma ext_window_spec n k b r : (1 <= k <= n)%nat -> (k <= length b)%nat -> (n + 1 - k <= length r)%nat ->
  (ext_window n k b r = true <->
   (forall i, (i <= n)%nat -> nth (length b - k + i) (b ++ r) 0 = nth (length b - k) (b ++ r) 0)).
Proof.
  intros Hk Hb Hr. unfold ext_window, from_end.
  rewrite andb_true_iff, !forallb_forall.
  assert (Hlast : nth (length b - 1) b 0 = nth (length b - k + (k - 1)) (b ++ r) 0).
  { rewrite app_nth1 by lia; f_equal; lia. }
  split.
  - intros [H1 H2].
    assert (G : forall i, (i <= n)%nat -> nth (length b - k + i) (b ++ r) 0 = nth (length b - 1) b 0).
    { intros i Hi. destruct (Nat.lt_ge_cases i k) as [L|L].
      - rewrite app_nth1 by lia. destruct (Nat.eq_dec i (k - 1)) as [->|N].
        + f_equal; lia.
        + specialize (H2 (k - i)%nat ltac:(apply in_seq; lia)); apply Z.eqb_eq in H2.
          rewrite <- H2; f_equal; lia.
      - rewrite app_nth2 by lia. specialize (H1 (i - k)%nat ltac:(apply in_seq; lia)); apply Z.eqb_eq in H1.
        rewrite <- H1; f_equal; lia. }
    intros i Hi; rewrite G by lia. specialize (G 0%nat ltac:(lia)). rewrite Nat.add_0_r in G; congruence.
  - intros H; split; intros i Hi; rewrite in_seq in Hi; apply Z.eqb_eq; rewrite Hlast, (H (k - 1)%nat) by lia.
    + rewrite <- (H (k + i)%nat) by lia. rewrite app_nth2 by lia; f_equal; lia.
    + rewrite <- (H (k - i)%nat) by lia. rewrite app_nth1 by lia; f_equal; lia.
Qed.

(** n + 1 equal plies astride the joint between [b] and the first [g] plies of [r] *)
Definition astride (n : nat) (b l : list Z) : Prop :=
  exists x l1 l2, b ++ l = l1 ++ repeat x (S n) ++ l2 /\ (length l1 < length b < length l1 + S n)%nat.

Lemma astride_spec n b l : astride n b l <->
  exists k, (1 <= k <= n)%nat /\ (k <= length b)%nat /\ (n + 1 - k <= length l)%nat /\
    forall i, (i <= n)%nat -> nth (length b - k + i) (b ++ l) 0 = nth (length b - k) (b ++ l) 0.
Proof.
  split.
  - intros [x [l1 [l2 [E [H1 H2]]]]]; exists (length b - length l1)%nat.
    assert (L : (length b + length l = length l1 + (S n + length l2))%nat).
    { rewrite <- app_length, E, !app_length, repeat_length; lia. }
    split; [lia|]; split; [lia|]; split; [lia|].
    assert (B : block_at (S n) (length l1) (b ++ l)) by (exists x, l1, l2; auto).
    apply block_at_nth in B; destruct B as [_ B]; intros i Hi.
    replace (length b - (length b - length l1))%nat with (length l1) by lia; apply B; lia.
  - intros [k [Hk [Hb [Hl H]]]].
    assert (B : block_at (S n) (length b - k) (b ++ l)).
    { apply block_at_nth; rewrite app_length; split; [lia|]; exact H. }
    destruct B as [x [l1 [l2 [E Hl1]]]]; exists x, l1, l2; split; [exact E|lia].
Qed.

Lemma ext_blocks_spec st n g b : (2 <= n <= 6)%nat -> (1 <= g)%nat -> forall j k x,
  (1 <= k)%nat -> step_ok st x -> (forall r, In r (fst x) -> (g <= length r)%nat) ->
  exists p, ext_blocks st n g b k j x = filtered st p x /\
    forall r, (g <= length r)%nat ->
      (p r = true <-> ~ exists k', (k <= k' < k + j)%nat /\ (k' <= n)%nat /\ (k' <= length b)%nat /\ (n + 1 - k' <= g)%nat /\
         forall i, (i <= n)%nat -> nth (length b - k' + i) (b ++ firstn g r) 0 = nth (length b - k') (b ++ firstn g r) 0).
Proof.
  intros Hn Hg; induction j as [|j IH]; intros k x Hk Hx Hr.
  - exists (fun _ => true); cbn [ext_blocks]; rewrite filtered_true by exact Hx; split; [reflexivity|].
    intros r _; split; auto; intros _ [k' [H _]]; lia.
  - cbn [ext_blocks].
    assert (C : exists q, (if (Nat.leb k (length b) && Nat.leb k n && (Nat.eqb k n || Nat.ltb (n - k) g))%bool
                           then sweep_all (ext_window n k b) st x else x) = filtered st q x /\
        forall r, (g <= length r)%nat -> (q r = true <-> ~ ((k <= n)%nat /\ (k <= length b)%nat /\ (n + 1 - k <= g)%nat /\
         forall i, (i <= n)%nat -> nth (length b - k + i) (b ++ firstn g r) 0 = nth (length b - k) (b ++ firstn g r) 0))).
    { destruct (Nat.leb k (length b) && Nat.leb k n && (Nat.eqb k n || Nat.ltb (n - k) g))%bool eqn:E.
      - rewrite !andb_true_iff, orb_true_iff, !Nat.leb_le, Nat.eqb_eq, Nat.ltb_lt in E.
        rewrite sweep_all_filtered by exact Hx.
        eexists; split; [reflexivity|]. intros r Hlr. cbv beta.
        assert (W : ext_window n k b r = true <-> (forall i, (i <= n)%nat -> nth (length b - k + i) (b ++ firstn g r) 0 = nth (length b - k) (b ++ firstn g r) 0)).
        { rewrite <- (ext_window_spec n k b (firstn g r)) by (rewrite ?firstn_length; lia).
          rewrite (ext_window_spec n k b r) by lia. rewrite (ext_window_spec n k b (firstn g r)) by (rewrite ?firstn_length; lia).
          assert (A : forall i, (i <= n)%nat -> nth (length b - k + i) (b ++ firstn g r) 0 = nth (length b - k + i) (b ++ r) 0).
          { intros i Hi. destruct (Nat.lt_ge_cases (length b - k + i) (length b)) as [L|L].
            - rewrite !app_nth1 by lia; reflexivity.
            - rewrite !app_nth2 by lia. rewrite nth_firstn by lia; reflexivity. }
          pose proof (A 0%nat ltac:(lia)) as A0; rewrite Nat.add_0_r in A0.
          split; intros H i Hi; specialize (H i Hi); rewrite ?A, ?A0 in * by exact Hi; exact H. }
        destruct (ext_window n k b r) eqn:F; cbn [negb]; split; intros H; try discriminate; try reflexivity.
        + exfalso; apply H; split; [lia|]; split; [lia|]; split; [lia|]; apply W; reflexivity.
        + intros [_ [_ [_ H']]]; apply W in H'; discriminate.
      - exists (fun _ => true); rewrite filtered_true by exact Hx; split; [reflexivity|].
        intros r _; split; auto. intros _ [H1 [H2 [H3 _]]].
        rewrite !andb_false_iff, orb_false_iff, !Nat.leb_gt, Nat.eqb_neq, Nat.ltb_ge in E; lia. }
    destruct C as [q [-> Hq]].
    destruct (IH (S k) (filtered st q x)) as [p [-> Hp]]; [lia|apply filtered_step; exact Hx| |].
    { intros r Hin; cbn [fst filtered] in Hin; apply filter_In in Hin; apply Hr; tauto. }
    rewrite filtered_twice by exact Hx.
    eexists; split; [reflexivity|]. intros r Hlr; cbv beta; rewrite andb_true_iff, Hq, Hp by exact Hlr. split.
    + intros [H1 H2] [k' [H3 H4]]. destruct (Nat.eq_dec k' k) as [->|N]; [apply H1; tauto|].
      apply H2; exists k'; split; [lia|exact H4].
    + intros H; split.
      * intros H1; apply H; exists k; split; [lia|exact H1].
      * intros [k' [H1 H2]]; apply H; exists k'; split; [lia|exact H2].
Qed.

Lemma ext_contig_part_spec st c g b x :
  (contig c = true -> (2 <= n_contig c <= 6)%nat) -> (1 <= g)%nat -> step_ok st x ->
  (forall r, In r (fst x) -> (g <= length r)%nat) ->
  exists p, ext_contig_part st c g b x = Ok (filtered st p x) /\
    forall r, (g <= length r)%nat -> (p r = true <-> (contig c = true -> ~ astride (n_contig c) b (firstn g r))).
Proof.
  intros Hn Hg Hx Hr; unfold ext_contig_part; destruct (contig c).
  2:{ exists (fun _ => true); rewrite filtered_true by exact Hx; split; [reflexivity|]; intros r _; split; [discriminate|auto]. }
  specialize (Hn eq_refl). destruct b as [|z b'].
  - exists (fun _ => true); rewrite filtered_true by exact Hx; split; [reflexivity|].
    intros r _; split; auto. intros _ _ [y [l1 [l2 [_ H]]]]; cbn in H; lia.
  - replace (Nat.leb 2 (n_contig c) && Nat.leb (n_contig c) 6)%bool with true
      by (symmetry; apply andb_true_iff; split; apply Nat.leb_le; lia).
    remember (z :: b') as b. clear Heqb z b'.
    destruct (ext_blocks_spec st (n_contig c) g b Hn Hg 6 1 x ltac:(lia) Hx Hr) as [p [-> Hp]].
    exists p; split; [reflexivity|]. intros r Hlr; rewrite Hp by exact Hlr. rewrite astride_spec. split.
    + intros H _ [k [H1 [H2 [H3 H4]]]]; apply H; exists k. rewrite firstn_length in H3.
      split; [lia|]; split; [lia|]; split; [lia|]; split; [lia|exact H4].
    + intros H [k [H1 [H2 [H3 [H4 H5]]]]]; apply (H eq_refl); exists k; rewrite firstn_length.
      split; [lia|]; split; [lia|]; split; [lia|exact H5].
Qed.
