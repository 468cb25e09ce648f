(* DiversProofs.v - lemmas about Divers.v *)
From Verif Require Import Base Uniq Divers.

Lemma get_ok {A} (l : list A) (i : nat) d :
  (i < length l)%nat -> get l (Z.of_nat i) = Ok (nth i l d).
Proof.
  intros H; unfold get, py_get, zlen.
  assert (0 <=? Z.of_nat i = true) as -> by (apply Z.leb_le; lia).
  assert (Z.of_nat i <? Z.of_nat (length l) = true) as -> by (apply Z.ltb_lt; lia).
  rewrite Nat2Z.id, (nth_error_nth' l d H); reflexivity.
Qed.

(** sortedness by positions *)
Lemma ssorted_nth (R : Z -> Z -> Prop) l i j d :
  StronglySorted R l -> (i < j < length l)%nat -> R (nth i l d) (nth j l d).
Proof.
  intros H; revert i j; induction H as [|a t Ht IH Hf]; intros i j Hij; cbn [length] in *; [lia|].
  destruct i as [|i], j as [|j]; try lia; cbn [nth].
  - rewrite Forall_forall in Hf; apply Hf, nth_In; lia.
  - apply IH; lia.
Qed.

Lemma insert_perm a l : Permutation (insert a l) (a :: l).
Proof.
  induction l as [|b t IH]; cbn [insert]; auto.
  destruct (a <=? b); auto. rewrite IH; constructor.
Qed.
Lemma isort_perm l : Permutation (isort l) l.
Proof. induction l as [|a t IH]; cbn [isort]; auto. rewrite insert_perm; auto. Qed.
Lemma insert_sorted a l : StronglySorted Z.le l -> StronglySorted Z.le (insert a l).
Proof.
  induction 1 as [|b t Ht IH Hf]; cbn [insert]; [repeat constructor|].
  destruct (Z.leb_spec a b).
  - constructor; [constructor; auto|]. constructor; [lia|].
    rewrite Forall_forall in *; intros x Hx; specialize (Hf x Hx); lia.
  - constructor; auto. rewrite Forall_forall in *; intros x Hx.
    apply (Permutation_in _ (insert_perm a t)) in Hx; destruct Hx as [->|Hx]; [lia|auto].
Qed.
Lemma isort_sorted l : StronglySorted Z.le (isort l).
Proof. induction l; cbn [isort]; [constructor | now apply insert_sorted]. Qed.

(** binary search *)
Lemma index_of_sorted x arr i :
  StronglySorted Z.le arr -> index_of x arr = Some i ->
  (i < length arr)%nat /\ nth i arr 0 = x /\
  forall j, (j < length arr)%nat -> (nth j arr 0 < x <-> (j < i)%nat).
Proof.
  intros Hs Hi; apply index_of_some in Hi; destruct Hi as [Hl [He Hb]].
  apply nth_error_nth with (d := 0) in He.
  split; auto; split; auto; intros j Hj; split; intros H.
  - destruct (Nat.lt_ge_cases j i) as [|G]; auto; exfalso.
    destruct (Nat.eq_dec i j); [subst; lia|].
    pose proof (ssorted_nth Z.le arr i j 0 Hs ltac:(lia)); lia.
  - pose proof (ssorted_nth Z.le arr j i 0 Hs ltac:(lia)) as G.
    assert (nth j arr 0 <> x); [|lia].
    intros E; apply (Hb j H); rewrite (nth_error_nth' arr 0 Hj); congruence.
Qed.

Lemma first_spec_gen arr x :
  StronglySorted Z.le arr ->
  forall fuel low high,
  (0 <= low)%Z -> (high < zlen arr)%Z -> (high - low + 1 < Z.of_nat fuel)%Z ->
  (0 < Z.of_nat fuel) ->
  match index_of x arr with
  | Some i => low <= Z.of_nat i <= high -> first fuel arr low high x = Ok (Z.of_nat i)
  | None => first fuel arr low high x = Ok (-1)
  end.
Proof.
  intros Hs; induction fuel as [|fuel IH]; intros low high Hl Hh Hf Hp; [lia|].
  cbn [first].
  destruct (Z.leb_spec low high).
  2: { destruct (index_of x arr); [lia | reflexivity]. }
  set (mid := low + (high - low) / 2).
  assert (Hm : low <= mid <= high).
  { unfold mid; pose proof (Z.div_pos (high - low) 2);
    pose proof (Z.mul_div_le (high - low) 2); lia. }
  unfold zlen in *.
  pose proof (get_ok arr (Z.to_nat mid) 0 ltac:(lia)) as Gm; rewrite Z2Nat.id in Gm by lia.
  assert (Gc : exists c, (if mid =? 0 then Ok true
               else do p <- get arr (mid - 1); Ok (p <? x)) = Ok c /\
               (c = true <-> (mid = 0 \/ nth (Z.to_nat mid - 1) arr 0 < x))).
  { destruct (Z.eqb_spec mid 0); [exists true; split; auto; tauto|].
    pose proof (get_ok arr (Z.to_nat mid - 1) 0 ltac:(lia)) as G.
    rewrite Nat2Z.inj_sub, Z2Nat.id in G by lia; change (Z.of_nat 1) with 1 in G.
    rewrite G; cbn [bind]; eexists; split; [reflexivity|].
    rewrite Z.ltb_lt; split; [auto | intros [?|?]; [lia|auto]]. }
  destruct Gc as [c [-> Hc]]; cbn [bind]; rewrite Gm; cbn [bind].
  set (am := nth (Z.to_nat mid) arr 0) in *.
  destruct (index_of x arr) as [i|] eqn:Ei.
  - destruct (index_of_sorted x arr i Hs Ei) as [Hi [Ex Hx]]; intros Hi'.
    pose proof (Hx (Z.to_nat mid) ltac:(lia)) as X1; fold am in X1.
    destruct (c && (am =? x))%bool eqn:E.
    + apply andb_true_iff in E; destruct E as [E1 E2]; apply Hc in E1; apply Z.eqb_eq in E2.
      f_equal; destruct E1 as [E1|E1]; [lia|].
      apply Hx in E1; lia.
    + assert (Hne : Z.of_nat i <> mid).
      { intros Eq. assert (am = x) by (unfold am; rewrite <- Eq, Nat2Z.id; exact Ex).
        assert (c = true).
        { apply Hc. destruct (Z.eq_dec mid 0); [auto | right; apply Hx; lia]. }
        subst c; rewrite (proj2 (Z.eqb_eq am x)) in E; auto; discriminate. }
      destruct (Z.ltb_spec am x).
      * apply IH; lia.
      * apply IH; lia.
  - assert (Hn : am <> x).
    { apply index_of_none in Ei; intros A; apply Ei; rewrite <- A; apply nth_In; lia. }
    rewrite (proj2 (Z.eqb_neq am x) Hn), andb_false_r.
    destruct (am <? x); apply IH; lia.
Qed.

Lemma first_spec arr x :
  StronglySorted Z.le arr ->
  first (S (length arr)) arr 0 (zlen arr - 1) x =
  Ok (match index_of x arr with Some i => Z.of_nat i | None => -1 end).
Proof.
  intros Hs; pose proof (first_spec_gen arr x Hs (S (length arr)) 0 (zlen arr - 1)) as H.
  unfold zlen in *; specialize (H ltac:(lia) ltac:(lia)).
  destruct (index_of x arr) as [i|] eqn:E.
  - pose proof (index_of_some _ _ _ E) as [Hi _].
    apply H; lia.
  - apply H; lia.
Qed.

(** sequence of writes: [puts s w] writes the values w from position ind on *)
Definition good (A1 : list Z) (w : list Z) (s : sst) : Prop :=
  out s = w ++ skipn (length w) A1 /\ ind s = length w /\ (length w <= length A1)%nat.

Lemma put_good A1 w s v :
  good A1 w s ->
  if Nat.ltb (length w) (length A1)
  then exists s', put s v = Ok s' /\ good A1 (w ++ [v]) s' /\ visited s' = visited s
  else put s v = Err IndexError.
Proof.
  intros [Ho [Hi Hl]].
  assert (Lo : length (out s) = length A1)
    by (rewrite Ho, app_length, skipn_length; lia).
  unfold put; rewrite Hi, Lo.
  destruct (Nat.ltb_spec (length w) (length A1)); auto.
  eexists; split; [reflexivity|]; split; auto.
  unfold good; cbn [out ind]; rewrite app_length; cbn [length]; repeat split; try lia.
  rewrite Ho, upd_spec by (rewrite app_length, skipn_length; lia).
  rewrite firstn_app, firstn_all, Nat.sub_diag; cbn [firstn].
  rewrite app_nil_r, <- app_assoc; f_equal; cbn [app]; f_equal.
  rewrite skipn_app, (skipn_all2 w) by lia; cbn [app].
  rewrite skipn_skipn; f_equal; lia.
Qed.

(** the run of values equal to a at the head of a list *)
Fixpoint run (a : Z) (l : list Z) : nat :=
  match l with t :: r => if t =? a then S (run a r) else O | [] => O end.

Lemma copy_run_good A1 a : forall rest w j s,
  good A1 w s -> (j + length rest = length (visited s))%nat ->
  if Nat.leb (length w + run a rest) (length A1)
  then exists s', copy_run rest a j s = Ok s' /\ good A1 (w ++ repeat a (run a rest)) s' /\
       length (visited s') = length (visited s) /\
       forall k d, (k < length (visited s))%nat ->
         nth k (visited s') d =
         if (Nat.leb j k && Nat.ltb k (j + run a rest))%bool then true else nth k (visited s) d
  else copy_run rest a j s = Err IndexError.
Proof.
  induction rest as [|t r IH]; intros w j s Hg Hj; cbn [run copy_run length] in *.
  - destruct (Nat.leb_spec (length w + 0) (length A1)) as [H|H].
    2: { destruct Hg as [_ [_ Hl]]; lia. }
    exists s; split; auto; cbn [repeat]; rewrite app_nil_r; repeat split; try apply Hg; auto.
    intros k d Hk; destruct (Nat.leb_spec j k), (Nat.ltb_spec k (j + 0)); cbn; auto; lia.
  - destruct (Z.eqb_spec t a) as [->|Hta].
    2: { destruct (Nat.leb_spec (length w + 0) (length A1)) as [H|H].
         2: { destruct Hg as [_ [_ Hl]]; lia. }
         exists s; split; auto; cbn [repeat]; rewrite app_nil_r; repeat split; try apply Hg; auto.
         intros k d Hk; destruct (Nat.leb_spec j k), (Nat.ltb_spec k (j + 0)); cbn; auto; lia. }
    pose proof (put_good A1 w s a Hg) as P.
    destruct (Nat.ltb_spec (length w) (length A1)).
    2: { rewrite P; cbn [bind].
         destruct (Nat.leb_spec (length w + S (run a r)) (length A1)); auto; lia. }
    destruct P as [s1 [-> [G1 V1]]]; cbn [bind].
    specialize (IH (w ++ [a]) (S j)
      {| out := out s1; visited := upd j true (visited s1); ind := ind s1 |}).
    assert (G2 : good A1 (w ++ [a])
      {| out := out s1; visited := upd j true (visited s1); ind := ind s1 |}) by exact G1.
    cbn [visited] in IH; rewrite upd_length, V1 in IH.
    specialize (IH G2 ltac:(lia)); rewrite V1.
    rewrite app_length in IH; cbn [length] in IH.
    replace (length w + 1 + run a r)%nat with (length w + S (run a r))%nat in IH by lia.
    destruct (Nat.leb (length w + S (run a r)) (length A1)); auto.
    destruct IH as [s' [-> [G' [L' N']]]]; exists s'; split; auto.
    cbn [repeat]; rewrite <- app_assoc in G'; cbn [app] in G'; repeat split; try apply G'; auto.
    intros k d Hk; rewrite N' by auto; rewrite nth_upd.
    destruct (Nat.leb_spec (S j) k), (Nat.ltb_spec k (S j + run a r)), (Nat.leb_spec j k),
      (Nat.ltb_spec k (j + S (run a r))), (Nat.eqb_spec j k), (Nat.ltb_spec j (length (visited s)));
      cbn; auto; try lia.
Qed.

Lemma run_le a l : (run a l <= length l)%nat.
Proof. induction l as [|t r IH]; cbn [run length]; [lia|]. destruct (t =? a); lia. Qed.

(** in a sorted list the run from the first occurrence holds all occurrences *)
Lemma run_first a l i :
  StronglySorted Z.le l -> index_of a l = Some i ->
  Z.of_nat (run a (skipn i l)) = count a l /\
  forall k, (k < length l)%nat -> nth k l 0 = a <-> (i <= k < i + run a (skipn i l))%nat.
Proof.
  intros Hs; revert i; induction Hs as [|b t Ht IH Hf]; intros i; cbn [index_of]; [discriminate|].
  rewrite Forall_forall in Hf.
  destruct (Z.eqb_spec b a) as [->|Hne].
  - intros H; injection H as <-; cbn [skipn run]; rewrite Z.eqb_refl, count_cons.
    destruct (Z.eq_dec a a); [|congruence].
    destruct (index_of a t) as [i|] eqn:E.
    + destruct (IH i eq_refl) as [IH1 IH2].
      assert (Hi : i = 0%nat).
      { destruct (index_of_sorted a t i Ht E) as [Hl [Hn Hx]].
        destruct i; auto; exfalso.
        assert (Hlt : (0 < length t)%nat) by lia.
        pose proof (proj2 (Hx 0%nat ltac:(lia)) ltac:(lia)).
        specialize (Hf (nth 0 t 0) (nth_In t 0 Hlt)); lia. }
      subst i; cbn [skipn] in *; split; [lia|].
      intros [|k] Hk; cbn [nth length] in *; [lia|]. rewrite IH2 by lia; lia.
    + apply index_of_none in E.
      assert (run a t = 0%nat) as R.
      { destruct t as [|u v]; auto; cbn [run]; destruct (Z.eqb_spec u a); auto.
        subst; exfalso; apply E; left; auto. }
      rewrite R; split; [apply count_zero in E; lia|].
      intros [|k] Hk; cbn [nth length] in *; [lia|]. split; [|lia].
      intros <-; exfalso; apply E, nth_In; lia.
  - destruct (index_of a t) as [k|] eqn:E; [|discriminate].
    intros H; injection H as <-; cbn [skipn]; rewrite count_cons.
    destruct (Z.eq_dec b a); [congruence|].
    destruct (IH k eq_refl) as [IH1 IH2]; split; [lia|].
    intros [|j] Hj; cbn [nth length] in *; [lia|]. rewrite IH2 by lia; lia.
Qed.

Definition occurrences (A : list Z) (a : Z) : list Z := repeat a (Z.to_nat (count a A)).

Lemma copy_all_good A1 : forall A2 done w s,
  good A1 w s ->
  length (visited s) = length A1 ->
  (forall k, (k < length A1)%nat -> nth k (visited s) false = memb (nth k (isort A1) 0) done) ->
  let w' := w ++ flat_map (occurrences A1) A2 in
  if Nat.leb (length w') (length A1)
  then exists s', copy_all (isort A1) A2 s = Ok s' /\ good A1 w' s' /\
        length (visited s') = length A1 /\
        (forall k, (k < length A1)%nat ->
           nth k (visited s') false = memb (nth k (isort A1) 0) (done ++ A2))
  else copy_all (isort A1) A2 s = Err IndexError.
Proof.
  assert (Ls : length (isort A1) = length A1)
    by (apply Permutation_length, isort_perm).
  induction A2 as [|a t IH]; intros done w s Hg Hv Hn; cbn [flat_map copy_all].
  - rewrite app_nil_r; cbn zeta.
    destruct (Nat.leb_spec (length w) (length A1)) as [H|H].
    2: { destruct Hg as [_ [_ Hl]]; lia. }
    exists s; rewrite app_nil_r; auto.
  - cbn zeta; rewrite first_spec by apply isort_sorted; cbn [bind].
    destruct (index_of a (isort A1)) as [i|] eqn:E.
    + destruct (run_first a (isort A1) i (isort_sorted A1) E) as [R1 R2].
      assert (Z.of_nat i =? -1 = false) as -> by (apply Z.eqb_neq; lia).
      rewrite Nat2Z.id.
      pose proof (index_of_some _ _ _ E) as [Hi _].
      rewrite (count_perm a _ _ (isort_perm A1)) in R1.
      assert (Ro : occurrences A1 a = repeat a (run a (skipn i (isort A1))))
        by (unfold occurrences; f_equal; lia).
      pose proof (copy_run_good A1 a (skipn i (isort A1)) w i s Hg) as C.
      rewrite skipn_length, Hv, Ls in C; specialize (C ltac:(lia)).
      destruct (Nat.leb_spec (length w + run a (skipn i (isort A1))) (length A1)) as [L|L].
      * destruct C as [s1 [-> [G1 [V1 N1]]]]; cbn [bind].
        specialize (IH (done ++ [a]) _ s1 G1 V1).
        rewrite <- Ro, <- !app_assoc in IH; cbn [app] in IH.
        apply IH; clear IH.
        intros k Hk; rewrite N1 by auto.
        specialize (R2 k ltac:(lia)).
        unfold memb; rewrite existsb_app; cbn [existsb]; rewrite orb_false_r.
        destruct (Nat.leb_spec i k), (Nat.ltb_spec k (i + run a (skipn i (isort A1))));
          cbn [andb].
        -- rewrite (proj2 R2) by lia; rewrite Z.eqb_refl, orb_true_r; auto.
        -- rewrite (Hn k Hk); unfold memb.
           assert (nth k (isort A1) 0 =? a = false) as -> by (apply Z.eqb_neq; intros X; apply R2 in X; lia).
           rewrite orb_false_r; auto.
        -- rewrite (Hn k Hk); unfold memb.
           assert (nth k (isort A1) 0 =? a = false) as -> by (apply Z.eqb_neq; intros X; apply R2 in X; lia).
           rewrite orb_false_r; auto.
        -- rewrite (Hn k Hk); unfold memb.
           assert (nth k (isort A1) 0 =? a = false) as -> by (apply Z.eqb_neq; intros X; apply R2 in X; lia).
           rewrite orb_false_r; auto.
      * rewrite C; cbn [bind].
        rewrite Ro, !app_length, repeat_length.
        destruct (Nat.leb_spec (length w + (run a (skipn i (isort A1)) +
          length (flat_map (occurrences A1) t))) (length A1)); auto; lia.
    + cbn [Z.eqb Pos.eqb].
      assert (Hni : ~ In a A1).
      { apply index_of_none in E; intros X; apply E.
        apply (Permutation_in _ (Permutation_sym (isort_perm A1))), X. }
      assert (occurrences A1 a = []) as ->.
      { unfold occurrences; apply count_zero in Hni; rewrite Hni; reflexivity. }
      cbn [app]; specialize (IH (done ++ [a]) w s Hg Hv).
      rewrite <- app_assoc in IH; cbn [app] in IH; apply IH; clear IH.
      intros k Hk; rewrite (Hn k Hk); unfold memb; rewrite existsb_app; cbn [existsb].
      assert (nth k (isort A1) 0 =? a = false) as ->.
      { apply Z.eqb_neq; intros <-; apply index_of_none in E; apply E, nth_In; lia. }
      rewrite !orb_false_r; auto.
Qed.

Lemma copy_rest_good A1 A2 : forall rest vis w s,
  good A1 w s -> length vis = length rest ->
  (forall k, (k < length rest)%nat -> nth k vis false = memb (nth k rest 0) A2) ->
  let w' := w ++ filter (fun x => negb (memb x A2)) rest in
  if Nat.leb (length w') (length A1)
  then exists s', copy_rest rest vis s = Ok s' /\ good A1 w' s'
  else copy_rest rest vis s = Err IndexError.
Proof.
  induction rest as [|t r IH]; intros vis w s Hg Hl Hn; cbn [copy_rest filter].
  - rewrite app_nil_r; cbn zeta.
    destruct (Nat.leb_spec (length w) (length A1)); [eauto|].
    destruct Hg as [_ [_ Hl']]; lia.
  - destruct vis as [|v vs]; [discriminate|]; cbn [length] in Hl.
    pose proof (Hn 0%nat ltac:(cbn; lia)) as H0; cbn [nth] in H0; subst v.
    assert (Hn' : forall k, (k < length r)%nat -> nth k vs false = memb (nth k r 0) A2)
      by (intros k Hk; apply (Hn (S k)); cbn; lia).
    destruct (memb t A2); cbn [negb].
    + apply IH; auto; lia.
    + pose proof (put_good A1 w s t Hg) as P.
      destruct (Nat.ltb_spec (length w) (length A1)).
      * destruct P as [s1 [-> [G1 _]]]; cbn [bind].
        specialize (IH vs (w ++ [t]) s1 G1 ltac:(lia) Hn').
        rewrite <- app_assoc in IH; cbn [app] in IH; exact IH.
      * rewrite P; cbn [bind]; cbn zeta; rewrite app_length; cbn [length].
        match goal with |- context [Nat.leb ?x ?y] => destruct (Nat.leb_spec x y) end; auto; lia.
Qed.

(** no element of A1 is listed twice in A2 *)
Definition ref_nodup (A1 A2 : list Z) : Prop := forall a, In a A1 -> count a A2 <= 1.

Definition sorted_by (A1 A2 : list Z) : list Z :=
  flat_map (occurrences A1) A2 ++ filter (fun x => negb (memb x A2)) (isort A1).

Lemma count_occurrences a b A : count a (occurrences A b) = if Z.eq_dec b a then count a A else 0.
Proof.
  unfold occurrences; rewrite count_repeat; destruct (Z.eq_dec b a); auto; subst.
  pose proof (count_nonneg a A); lia.
Qed.
Lemma count_flat_occ a A : forall B,
  count a (flat_map (occurrences A) B) = count a B * count a A.
Proof.
  induction B as [|b t IH]; cbn [flat_map]; [reflexivity|].
  rewrite count_app, IH, count_occurrences, count_cons; destruct (Z.eq_dec b a); lia.
Qed.
Lemma count_filter a p : forall l, count a (filter p l) = if p a then count a l else 0.
Proof.
  induction l as [|x t IH]; cbn [filter]; [rewrite count_nil; destruct (p a); auto|].
  destruct (p x) eqn:E; rewrite ?count_cons, IH; destruct (Z.eq_dec x a); subst;
    rewrite ?E; destruct (p a); auto; congruence.
Qed.
Lemma count_sorted_by a A1 A2 :
  count a (sorted_by A1 A2) = if memb a A2 then count a A2 * count a A1 else count a A1.
Proof.
  unfold sorted_by; rewrite count_app, count_flat_occ, count_filter.
  rewrite (count_perm a _ _ (isort_perm A1)).
  destruct (memb a A2) eqn:E; cbn [negb]; [lia|].
  apply memb_false, count_zero in E; lia.
Qed.

Lemma sorted_by_perm A1 A2 : ref_nodup A1 A2 -> Permutation (sorted_by A1 A2) A1.
Proof.
  intros H; apply perm_count; intros a; rewrite count_sorted_by.
  destruct (memb a A2) eqn:E; auto.
  apply memb_true, count_pos in E.
  destruct (in_dec Z.eq_dec a A1) as [X|X].
  - specialize (H a X); replace (count a A2) with 1 by lia; lia.
  - apply count_zero in X; rewrite X; lia.
Qed.

(** length is at least that of A1, with equality only without repetition *)
Lemma length_count_le : forall l m,
  (forall a, count a l <= count a m) -> (length l <= length m)%nat.
Proof.
  induction l as [|x t IH]; intros m H; [cbn; lia|].
  assert (Hx : In x m).
  { apply count_pos; specialize (H x); rewrite count_cons in H.
    destruct (Z.eq_dec x x); [|congruence]. pose proof (count_nonneg x t); lia. }
  apply in_split in Hx; destruct Hx as [m1 [m2 ->]].
  rewrite app_length; cbn [length].
  assert (length t <= length (m1 ++ m2))%nat; [|rewrite app_length in *; lia].
  apply IH; intros a; specialize (H a); rewrite ?count_app, ?count_cons in *; destruct (Z.eq_dec x a); lia.
Qed.

Lemma sorted_by_long A1 A2 : ~ ref_nodup A1 A2 -> (length A1 < length (sorted_by A1 A2))%nat.
Proof.
  intros H.
  assert (exists a, In a A1 /\ 2 <= count a A2) as [a [Ha Hc]].
  { destruct (existsb (fun a => 2 <=? count a A2) A1) eqn:E.
    - apply existsb_exists in E; destruct E as [a [H1 H2]]; exists a; split; auto; lia.
    - exfalso; apply H; intros a Ha.
      destruct (Z.le_gt_cases (count a A2) 1); auto.
      assert (existsb (fun a => 2 <=? count a A2) A1 = true); [|congruence].
      apply existsb_exists; exists a; split; auto; lia. }
  change (length A1 < length (sorted_by A1 A2))%nat with (length (a :: A1) <= length (sorted_by A1 A2))%nat.
  apply length_count_le; intros b; rewrite count_cons, count_sorted_by.
  pose proof (count_nonneg b A1).
  destruct (Z.eq_dec a b) as [<-|Hab].
  - assert (memb a A2 = true) as -> by (apply memb_true, count_pos; lia).
    apply count_pos in Ha; nia.
  - destruct (memb b A2) eqn:E; [|lia].
    apply memb_true, count_pos in E; nia.
Qed.

Lemma sortAccording_eq A1 A2 :
  (ref_nodup A1 A2 -> sortAccording A1 A2 = Ok (sorted_by A1 A2)) /\
  (~ ref_nodup A1 A2 -> sortAccording A1 A2 = Err IndexError).
Proof.
  assert (Ls : length (isort A1) = length A1)
    by (apply Permutation_length, isort_perm).
  unfold sortAccording.
  pose proof (copy_all_good A1 A2 [] []
    {| out := A1; visited := repeat false (length A1); ind := 0 |}) as C.
  assert (G0 : good A1 [] {| out := A1; visited := repeat false (length A1); ind := 0 |}).
  { unfold good; cbn; repeat split; lia. }
  specialize (C G0); cbn [visited app] in C; rewrite repeat_length in C.
  specialize (C eq_refl).
  assert (V0 : forall k, (k < length A1)%nat ->
     nth k (repeat false (length A1)) false = memb (nth k (isort A1) 0) []).
  { intros k Hk; cbn; apply nth_repeat. }
  specialize (C V0); cbn zeta in C.
  destruct (Nat.leb_spec (length (flat_map (occurrences A1) A2)) (length A1)) as [L|L].
  - destruct C as [s [-> [G [V N]]]]; cbn [bind].
    pose proof (copy_rest_good A1 A2 (isort A1) (visited s) _ s G ltac:(lia)
      ltac:(intros k Hk; apply N; lia)) as R; cbn zeta in R.
    fold (sorted_by A1 A2) in R.
    split; intros H.
    + rewrite (Permutation_length (sorted_by_perm A1 A2 H)), Nat.leb_refl in R.
      destruct R as [s' [-> [Ho [Hi Hl]]]]; cbn [bind]; f_equal; rewrite Ho.
      rewrite skipn_all2, app_nil_r; auto.
      rewrite (Permutation_length (sorted_by_perm A1 A2 H)); lia.
    + apply sorted_by_long in H.
      destruct (Nat.leb_spec (length (sorted_by A1 A2)) (length A1)); [lia|].
      rewrite R; reflexivity.
  - rewrite C; cbn [bind]; split; auto; intros H; exfalso.
    pose proof (Permutation_length (sorted_by_perm A1 A2 H)) as P.
    unfold sorted_by in P; rewrite app_length in P; lia.
Qed.

(** x is not listed after y in the reference order *)
Definition not_after (A2 : list Z) (x y : Z) : Prop :=
  exists i j, (i <= j)%nat /\ nth_error A2 i = Some x /\ nth_error A2 j = Some y.

Lemma flat_occ_sorted A1 : forall A2,
  StronglySorted (not_after A2) (flat_map (occurrences A1) A2).
Proof.
  assert (Rep : forall (R : Z -> Z -> Prop) a n, R a a -> StronglySorted R (repeat a n)).
  { intros R a n Ra; induction n; cbn [repeat]; constructor; auto.
    apply Forall_forall; intros x Hx; apply repeat_spec in Hx; subst; auto. }
  assert (App : forall (R : Z -> Z -> Prop) l m, StronglySorted R l -> StronglySorted R m ->
     (forall x y, In x l -> In y m -> R x y) -> StronglySorted R (l ++ m)).
  { intros R l m Hl Hm Hc; induction Hl as [|a l Hl IH Hf]; auto; cbn [app]; constructor.
    - apply IH; intros x y Hx Hy; apply Hc; [right|]; auto.
    - apply Forall_app; split; auto; apply Forall_forall; intros y Hy; apply Hc; [left|]; auto. }
  assert (Mono : forall (R S : Z -> Z -> Prop) l, (forall x y, R x y -> S x y) ->
     StronglySorted R l -> StronglySorted S l).
  { intros R S l H Hl; induction Hl; constructor; auto; eapply Forall_impl; [|eassumption]; auto. }
  induction A2 as [|a t IH]; cbn [flat_map]; [constructor|].
  apply App.
  - apply Rep; exists 0%nat, 0%nat; cbn; auto.
  - apply (Mono (not_after t)); auto.
    intros x y [i [j [H1 [H2 H3]]]]; exists (S i), (S j); cbn; repeat split; auto; lia.
  - intros x y Hx Hy. unfold occurrences in Hx; apply repeat_spec in Hx; subst x.
    apply in_flat_map in Hy; destruct Hy as [b [Hb Hy]].
    apply repeat_spec in Hy; subst y.
    apply In_nth_error in Hb; destruct Hb as [j Hj].
    exists 0%nat, (S j); cbn; repeat split; auto; lia.
Qed.

Lemma filter_ssorted (p : Z -> bool) l : StronglySorted Z.le l -> StronglySorted Z.le (filter p l).
Proof.
  induction 1 as [|a l Hl IH Hf]; cbn [filter]; [constructor|].
  destruct (p a); auto; constructor; auto.
  rewrite Forall_forall in *; intros x Hx; apply filter_In in Hx; apply Hf; tauto.
Qed.

Lemma sortAccording_sorts A1 A2 :
  ref_nodup A1 A2 ->
  exists front back, sortAccording A1 A2 = Ok (front ++ back) /\
    Permutation (front ++ back) A1 /\
    (forall x, In x front -> In x A2) /\ StronglySorted (not_after A2) front /\
    (forall x, In x back -> ~ In x A2) /\ StronglySorted Z.le back.
Proof.
  intros H; exists (flat_map (occurrences A1) A2),
    (filter (fun x => negb (memb x A2)) (isort A1)).
  fold (sorted_by A1 A2); repeat split.
  - apply (sortAccording_eq A1 A2); auto.
  - apply sorted_by_perm; auto.
  - intros x Hx; apply in_flat_map in Hx; destruct Hx as [b [Hb Hx]].
    apply repeat_spec in Hx; subst; auto.
  - apply flat_occ_sorted.
  - intros x Hx; apply filter_In in Hx; destruct Hx as [_ Hx].
    apply memb_false; destruct (memb x A2); auto; discriminate.
  - apply filter_ssorted, isort_sorted.
Qed.

(* ------------------------------------------------------------------ *)
(** * max_arrays *)

Lemma Qmax2_spec a b : ((a <= Qmax2 a b) /\ (b <= Qmax2 a b) /\ (Qmax2 a b = a \/ Qmax2 a b = b))%Q.
Proof.
  unfold Qmax2; destruct (Qle_bool b a) eqn:E.
  - apply Qle_bool_iff in E; split; [apply Qle_refl|]; auto.
  - assert (a < b)%Q.
    { apply Qnot_le_lt; intros X; apply Qle_bool_iff in X; congruence. }
    split; [apply Qlt_le_weak; auto|]; split; [apply Qle_refl | auto].
Qed.

Lemma map2_length {A B C} (f : A -> B -> C) l m :
  length l = length m -> length (map2 f l m) = length l.
Proof. revert m; induction l; intros [|] H; cbn in *; auto; discriminate. Qed.

Lemma map2_nth {A B C} (f : A -> B -> C) da db dc : forall l m i,
  length l = length m -> (i < length l)%nat ->
  nth i (map2 f l m) dc = f (nth i l da) (nth i m db).
Proof.
  induction l as [|a l IH]; intros [|b m] i H Hi; cbn in *; try lia.
  destruct i; auto; apply IH; lia.
Qed.

(** value of an argument at position i, a size-one array standing for all positions *)
Definition at_pos (l : list Q) (i : nat) : Q :=
  match l with [x] => x | _ => nth i l 0%Q end.

Definition is_max (m a b : Q) : Prop := (a <= m /\ b <= m /\ (m = a \/ m = b))%Q.

Lemma max_arrays_spec a1 a2 :
  let n1 := length (as_array a1) in let n2 := length (as_array a2) in
  if (Nat.eqb n1 1 || Nat.eqb n2 1 || Nat.eqb n1 n2)%bool
  then exists r, max_arrays a1 a2 = Ok r /\
       length r = (if Nat.eqb n1 1 then n2 else n1) /\
       forall i, (i < length r)%nat ->
         is_max (nth i r 0%Q) (at_pos (as_array a1) i) (at_pos (as_array a2) i)
  else max_arrays a1 a2 = Err ValueError.
Proof.
  cbn zeta; unfold max_arrays; generalize (as_array a1) (as_array a2); clear a1 a2.
  intros l m.
  assert (Gen : forall l m, length l = length m ->
    forall i, (i < length l)%nat ->
     is_max (nth i (map2 Qmax2 l m) 0%Q) (nth i l 0%Q) (nth i m 0%Q)).
  { intros l' m' H i Hi; rewrite (map2_nth Qmax2 0%Q 0%Q 0%Q) by auto; apply Qmax2_spec. }
  destruct l as [|x [|x' l]].
  - destruct m as [|y [|y' m]]; cbn.
    + exists []; split; [auto|split; [auto|intros i Hi; inversion Hi]].
    + exists []; split; [auto|split; [auto|intros i Hi; inversion Hi]].
    + reflexivity.
  - assert (G : exists r, Ok (map2 Qmax2 (repeat x (length m)) m) = Ok r /\ length r = length m /\
       forall i, (i < length r)%nat -> is_max (nth i r 0%Q) x (nth i m 0%Q)).
    { eexists; split; [reflexivity|].
      assert (L : length (map2 Qmax2 (repeat x (length m)) m) = length m).
      { rewrite map2_length; rewrite repeat_length; auto. }
      split; auto; intros i Hi; rewrite L in Hi.
      pose proof (Gen (repeat x (length m)) m ltac:(apply repeat_length) i
        ltac:(rewrite repeat_length; auto)) as G.
      assert (nth i (repeat x (length m)) 0%Q = x) as E.
      { rewrite nth_indep with (d' := x) by (rewrite repeat_length; auto); apply nth_repeat. }
      rewrite E in G; exact G. }
    destruct m as [|y [|y' m]]; cbn [length Nat.eqb orb at_pos] in *; try exact G.
    eexists; split; [reflexivity|]; split; auto; intros [|i] Hi; [|exfalso; cbn [length] in Hi; lia].
    cbn [nth]; apply Qmax2_spec.
  - destruct m as [|y [|y' m]]; cbn [length Nat.eqb orb].
    + reflexivity.
    + eexists; split; [reflexivity|].
      set (l' := x :: x' :: l).
      assert (L : length (map2 Qmax2 l' (repeat y (length l'))) = length l')
        by (apply map2_length; rewrite repeat_length; auto).
      split; [exact L|]. intros i Hi0.
      assert (Hi : (i < length l')%nat) by (rewrite <- L; exact Hi0).
      pose proof (Gen l' (repeat y (length l')) ltac:(rewrite repeat_length; auto) i Hi) as G.
      assert (nth i (repeat y (length l')) 0%Q = y) as E.
      { rewrite nth_indep with (d' := y) by (rewrite repeat_length; auto); apply nth_repeat. }
      rewrite E in G; exact G.
    + destruct (Nat.eqb (length l) (length m)) eqn:E; cbn [negb]; auto.
      apply Nat.eqb_eq in E.
      eexists; split; [reflexivity|].
      set (l' := x :: x' :: l); set (m' := y :: y' :: m).
      assert (LL : length l' = length m') by (cbn; lia).
      pose proof (map2_length Qmax2 l' m' LL) as L.
      split; [exact L|]. intros i Hi0.
      assert (Hi : (i < length l')%nat) by (rewrite <- L; exact Hi0).
      exact (Gen l' m' LL i Hi).
Qed.
