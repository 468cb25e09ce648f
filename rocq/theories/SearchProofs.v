(* SearchProofs.v - proofs about the selection steps of Search.v. *)
From Coq Require Import Lqa.
From Verif Require Import Base Search.
Local Open Scope Z_scope.

Lemma Qltb_true x y : Qltb x y = true <-> (x < y)%Q.
Proof.
  unfold Qltb. destruct (Qle_bool y x) eqn:E; cbn.
  - apply Qle_bool_iff in E. split; [discriminate|]. intros; exfalso; lra.
  - split; auto. intros _. apply Qnot_le_lt. intros H. apply Qle_bool_iff in H. congruence.
Qed.
Lemma Qltb_false x y : Qltb x y = false <-> (y <= x)%Q.
Proof.
  unfold Qltb. destruct (Qle_bool y x) eqn:E; cbn.
  - apply Qle_bool_iff in E. split; auto.
  - split; [discriminate|]. intros H. apply Qle_bool_iff in H. congruence.
Qed.

(** the comparison of argmin/argmax: a decision procedure of the strict part of a total
    preorder ([R a b]: a is at least as good as b) *)
Record ordering (lt : Q -> Q -> bool) (R : Q -> Q -> Prop) : Prop := {
  o_false : forall x y, lt x y = false <-> R y x;
  o_true : forall x y, lt x y = true -> R x y;
  o_refl : forall x, R x x;
  o_trans : forall x y z, R x y -> R y z -> R x z }.

Lemma min_ordering : ordering Qltb Qle.
Proof.
  split; intros.
  - apply Qltb_false.
  - apply Qltb_true in H; lra.
  - lra.
  - lra.
Qed.
Lemma max_ordering : ordering (fun x y => Qltb y x) (fun a b => b <= a)%Q.
Proof.
  split; intros; cbn in *.
  - apply Qltb_false.
  - apply Qltb_true in H; lra.
  - lra.
  - lra.
Qed.

Section ARG.
Variables (lt : Q -> Q -> bool) (R : Q -> Q -> Prop).
Hypothesis O : ordering lt R.

Lemma argbest_from_spec : forall l best bi i,
  let r := argbest_from lt best bi i l in
  (r = bi /\ Forall (R best) l) \/
  (exists j, r = (i + j)%nat /\ (j < length l)%nat /\ R (nth j l 0%Q) best /\ Forall (R (nth j l 0%Q)) l).
Proof.
  induction l as [|x l IH]; intros best bi i; cbn [argbest_from].
  - left; split; auto.
  - destruct (lt x best) eqn:E.
    + apply (o_true _ _ O) in E. right. destruct (IH x i (S i)) as [[-> H]|[j [-> [Hj [H1 H2]]]]].
      * exists 0%nat. cbn [nth length]. repeat split; try lia; auto. constructor; auto using (o_refl _ _ O).
      * exists (S j). cbn [nth length]. split; [lia|]. split; [lia|]. split; [eapply (o_trans _ _ O); eauto|].
        constructor; auto.
    + apply (o_false _ _ O) in E. destruct (IH best bi (S i)) as [[-> H]|[j [-> [Hj [H1 H2]]]]].
      * left; split; auto.
      * right. exists (S j). cbn [nth length]. split; [lia|]. split; [lia|]. split; auto.
        constructor; auto. eapply (o_trans _ _ O); eauto.
Qed.

Lemma argbest_spec l : l <> [] ->
  exists i, argbest lt l = Ok i /\ (i < length l)%nat /\ forall j, (j < length l)%nat -> R (nth i l 0%Q) (nth j l 0%Q).
Proof.
  destruct l as [|x l]; [congruence|]. intros _. cbn [argbest]. eexists; split; [reflexivity|].
  destruct (argbest_from_spec l x 0 1) as [[-> H]|[j [-> [Hj [H1 H2]]]]].
  - split; [cbn; lia|]. intros [|j] Hj; cbn [nth]; [apply (o_refl _ _ O)|].
    rewrite Forall_forall in H. apply H. apply nth_In. cbn in Hj; lia.
  - split; [cbn [length]; lia|]. cbn [plus]. intros [|k] Hk; cbn [nth]; auto.
    rewrite Forall_forall in H2. apply H2. apply nth_In. cbn in Hk; lia.
Qed.

Definition marked (s : Q) (v : list Q) (done : list nat) (w : list Q) : Prop :=
  NoDup done /\ (forall i, In i done -> (i < length v)%nat) /\ length w = length v /\
  (forall i, (i < length v)%nat -> nth i w 0%Q = if existsb (Nat.eqb i) done then s else nth i v 0%Q) /\
  (forall i j, In i done -> (j < length v)%nat -> ~ In j done -> R (nth i v 0%Q) (nth j v 0%Q)).

Lemma existsb_In i l : existsb (Nat.eqb i) l = true <-> In i l.
Proof.
  rewrite existsb_exists. split.
  - intros [x [H E]]. apply Nat.eqb_eq in E; subst; auto.
  - intros H; exists i; split; auto. apply Nat.eqb_refl.
Qed.
Lemma existsb_nIn i l : existsb (Nat.eqb i) l = false <-> ~ In i l.
Proof. rewrite <- existsb_In. destruct (existsb _ _); split; congruence. Qed.

Lemma exists_unmarked done n : NoDup done -> (forall i, In i done -> (i < n)%nat) -> (length done < n)%nat ->
  exists j, (j < n)%nat /\ ~ In j done.
Proof.
  intros N B L.
  destruct (existsb (fun j => negb (existsb (Nat.eqb j) done)) (seq 0 n)) eqn:E.
  - apply existsb_seq in E. destruct E as [j [Hj E]]. exists j; split; auto.
    apply existsb_nIn. destruct (existsb (Nat.eqb j) done); [discriminate|reflexivity].
  - exfalso. assert (I : incl (seq 0 n) done).
    { intros j Hj. apply in_seq in Hj. apply existsb_In. destruct (existsb (Nat.eqb j) done) eqn:F; auto.
      assert (X : existsb (fun j => negb (existsb (Nat.eqb j) done)) (seq 0 n) = true); [|congruence].
      apply existsb_seq. exists j; split; [lia|]. rewrite F; reflexivity. }
    apply NoDup_incl_length in I; [|apply seq_NoDup]. rewrite seq_length in I. lia.
Qed.

Lemma mark_gen s v : (forall x, In x v -> lt x s = true) ->
  forall k done w, marked s v done w -> (length done + k <= length v)%nat ->
  exists idx w', mark (argbest lt) s k w = Ok (idx, w') /\ length idx = k /\ marked s v (idx ++ done) w'.
Proof.
  intros Hs. induction k as [|k IH]; intros done w M L; cbn [mark].
  - exists [], w; auto.
  - destruct M as [N [B [Lw [W S]]]].
    destruct (argbest_spec w) as [i [E [Hi Best]]].
    { intros ->. cbn in Lw. lia. }
    rewrite E; cbn [bind].
    destruct (exists_unmarked done (length v) N B ltac:(lia)) as [u [Hu Nu]].
    assert (Ni : ~ In i done).
    { intros Hd. specialize (Best u ltac:(lia)). rewrite !W in Best by lia.
      rewrite (proj2 (existsb_In _ _) Hd), (proj2 (existsb_nIn _ _) Nu) in Best.
      apply (o_false _ _ O) in Best. rewrite Hs in Best; [discriminate|]. apply nth_In; auto. }
    assert (M' : marked s v (i :: done) (upd i s w)).
    { split; [constructor; auto|]. split; [intros j [<-|Hj]; [lia|auto]|].
      split; [rewrite upd_length; auto|]. split.
      - intros j Hj. rewrite nth_upd. cbn [existsb].
        destruct (Nat.eqb_spec i j) as [->|D].
        + rewrite Nat.eqb_refl. replace (Nat.ltb j (length w)) with true by (symmetry; apply Nat.ltb_lt; auto). reflexivity.
        + destruct (Nat.eqb_spec j i); [congruence|]. cbn [andb orb]. apply W; auto.
      - intros a b [<-|Ha] Hb Nb.
        + specialize (Best b ltac:(lia)). rewrite !W in Best by lia.
          rewrite (proj2 (existsb_nIn _ _) Ni) in Best.
          assert (Nb' : ~ In b done) by (intros X; apply Nb; right; auto).
          rewrite (proj2 (existsb_nIn _ _) Nb') in Best. exact Best.
        + apply S; auto. intros X; apply Nb; right; auto. }
    destruct (IH _ _ M' ltac:(cbn [length]; lia)) as [idx [w' [E' [Li M'']]]].
    rewrite E'; cbn [bind fst snd]. exists (i :: idx), w'. split; [reflexivity|]. split; [cbn; lia|].
    destruct M'' as [P1 [P2 [P3 [P4 P5]]]].
    assert (Iff : forall x, In x (idx ++ i :: done) <-> In x ((i :: idx) ++ done)).
    { intros x. rewrite !in_app_iff. cbn [In]. rewrite ?in_app_iff. tauto. }
    split; [|split; [|split; [|split]]]; auto.
    + apply (Permutation_NoDup (l := idx ++ i :: done)); auto. symmetry. apply Permutation_middle.
    + intros x Hx. apply P2, Iff, Hx.
    + intros x Hx. rewrite P4 by auto.
      destruct (existsb (Nat.eqb x) (idx ++ i :: done)) eqn:E1.
      * apply existsb_In, Iff, existsb_In in E1. rewrite E1; reflexivity.
      * apply existsb_nIn in E1. assert (E2 : ~ In x ((i :: idx) ++ done)) by (intros X; apply E1, Iff, X).
        apply existsb_nIn in E2. rewrite E2; reflexivity.
    + intros a b Ha Hb Nb. apply P5; auto; [apply Iff, Ha | intros X; apply Nb, Iff, X].
Qed.

Lemma mark_spec s v k : (forall x, In x v -> lt x s = true) -> (k <= length v)%nat ->
  exists idx w, mark (argbest lt) s k v = Ok (idx, w) /\ length idx = k /\ marked s v idx w.
Proof.
  intros Hs Hk. destruct (mark_gen s v Hs k [] v) as [idx [w [E [L M]]]].
  - split; [constructor|]. split; [intros i []|]. split; [reflexivity|]. split; [intros; reflexivity|].
    intros i j [].
  - cbn; lia.
  - exists idx, w. rewrite app_nil_r in M. auto.
Qed.
End ARG.

(* ------------------------------------------------------------------ *)
(** * Deleting entries *)

(** the entries whose flag is set *)
Definition keepf {A} (fs : list bool) (l : list A) : list A :=
  map snd (filter fst (combine fs l)).

Fixpoint npd {A} (s : nat) (idxs : list nat) (l : list A) : list A :=
  match l with
  | [] => []
  | x :: t => if existsb (Nat.eqb s) idxs then npd (S s) idxs t else x :: npd (S s) idxs t
  end.

Definition flags (s n : nat) (idxs : list nat) : list bool :=
  map (fun i => negb (existsb (Nat.eqb i) idxs)) (seq s n).

Lemma npd_keepf {A} idxs : forall (l : list A) s, npd s idxs l = keepf (flags s (length l) idxs) l.
Proof.
  induction l as [|x l IH]; intros s; [reflexivity|].
  unfold keepf, flags in *. cbn [npd length seq map combine filter fst]. rewrite IH.
  destruct (existsb (Nat.eqb s) idxs); reflexivity.
Qed.

Lemma np_delete_npd {A} idxs (l : list A) : np_delete idxs l = npd 0 idxs l.
Proof.
  unfold np_delete. generalize 0%nat. induction l as [|x l IH]; intros s; [reflexivity|].
  cbn [length seq combine filter fst npd]. rewrite <- IH.
  destruct (existsb (Nat.eqb s) idxs); reflexivity.
Qed.

Lemma npd_low {A} idxs : forall (l : list A) s, (forall i, In i idxs -> (i < s)%nat) -> npd s idxs l = l.
Proof.
  induction l as [|x l IH]; intros s H; [reflexivity|]. cbn [npd].
  destruct (existsb (Nat.eqb s) idxs) eqn:E.
  - apply existsb_In in E. apply H in E. lia.
  - rewrite IH; [reflexivity|]. intros i Hi; specialize (H i Hi); lia.
Qed.

Lemma npd_del {A} a t : (forall i, In i t -> (i < a)%nat) -> forall (l : list A) s, (s <= a)%nat ->
  npd s (a :: t) l = npd s t (del (a - s) l).
Proof.
  intros H. induction l as [|x l IH]; intros s Hs; cbn [npd]; [destruct (a - s)%nat; reflexivity|].
  cbn [existsb]. destruct (Nat.eqb_spec s a) as [->|D].
  - rewrite Nat.sub_diag. cbn [orb del]. rewrite !npd_low; auto.
    intros i [<-|Hi]; [lia|]. apply H in Hi; lia.
  - cbn [orb]. destruct (a - s)%nat as [|q] eqn:E; [lia|]. cbn [del npd].
    rewrite IH by lia. replace (a - S s)%nat with q by lia. reflexivity.
Qed.

Lemma fold_del_npd {A} : forall idxs (l : list A), StronglySorted (fun a b => (b < a)%nat) idxs ->
  fold_left (fun l i => del i l) idxs l = npd 0 idxs l.
Proof.
  induction idxs as [|a t IH]; intros l H; cbn [fold_left].
  - rewrite npd_low; auto. intros i [].
  - inversion H as [|? ? H1 H2]; subst. rewrite IH by auto.
    rewrite npd_del by (try lia; rewrite Forall_forall in H2; auto). rewrite Nat.sub_0_r. reflexivity.
Qed.

Lemma ninsert_perm a l : Permutation (a :: l) (ninsert a l).
Proof.
  induction l as [|h t IH]; cbn [ninsert]; auto. destruct (h <=? a)%nat; auto.
  rewrite perm_swap. constructor. exact IH.
Qed.
Lemma sort_desc_perm l : Permutation l (sort_desc l).
Proof. induction l as [|a t IH]; cbn; auto. rewrite <- ninsert_perm. constructor; auto. Qed.

Lemma ninsert_sorted a l : ~ In a l -> StronglySorted (fun a b => (b < a)%nat) l -> StronglySorted (fun a b => (b < a)%nat) (ninsert a l).
Proof.
  induction l as [|h t IH]; intros N H; cbn [ninsert].
  - repeat constructor.
  - inversion H as [|? ? H1 H2]; subst. destruct (h <=? a)%nat eqn:E.
    + apply Nat.leb_le in E. assert (h <> a) by (intros ->; apply N; left; auto).
      constructor; auto. constructor; [lia|]. rewrite Forall_forall in *. intros x Hx; specialize (H2 x Hx); lia.
    + apply Nat.leb_gt in E. constructor; [apply IH; auto; intros X; apply N; right; auto|].
      rewrite Forall_forall in *. intros x Hx. apply (Permutation_in _ (Permutation_sym (ninsert_perm a t))) in Hx.
      destruct Hx as [<-|Hx]; auto.
Qed.
Lemma sort_desc_sorted l : NoDup l -> StronglySorted (fun a b => (b < a)%nat) (sort_desc l).
Proof.
  induction 1 as [|a l N H IH]; cbn [sort_desc]; [constructor|].
  apply ninsert_sorted; auto. intros X. apply N. apply (Permutation_in _ (Permutation_sym (sort_desc_perm l))); auto.
Qed.

Lemma flags_perm s n i1 i2 : (forall x, In x i1 <-> In x i2) -> flags s n i1 = flags s n i2.
Proof.
  intros H. unfold flags. apply map_ext. intros a. f_equal.
  destruct (existsb (Nat.eqb a) i1) eqn:E1, (existsb (Nat.eqb a) i2) eqn:E2; auto.
  - apply existsb_In in E1. apply existsb_nIn in E2. exfalso; apply E2, H; auto.
  - apply existsb_In in E2. apply existsb_nIn in E1. exfalso; apply E1, H; auto.
Qed.

Lemma del_desc_keepf {A} idxs (l : list A) : NoDup idxs -> del_desc idxs l = keepf (flags 0 (length l) idxs) l.
Proof.
  intros N. unfold del_desc. rewrite fold_del_npd by (apply sort_desc_sorted; auto).
  rewrite npd_keepf. f_equal. apply flags_perm. intros x; split; intros H.
  - apply (Permutation_in _ (Permutation_sym (sort_desc_perm idxs))); auto.
  - apply (Permutation_in _ (sort_desc_perm idxs)); auto.
Qed.
Lemma np_delete_keepf {A} idxs (l : list A) : np_delete idxs l = keepf (flags 0 (length l) idxs) l.
Proof. rewrite np_delete_npd, npd_keepf. reflexivity. Qed.

Lemma flags_length s n idxs : length (flags s n idxs) = n.
Proof. unfold flags. rewrite map_length, seq_length; reflexivity. Qed.
Lemma flags_nth s n idxs i d : (i < n)%nat -> nth i (flags s n idxs) d = negb (existsb (Nat.eqb (s + i)) idxs).
Proof.
  intros H. unfold flags.
  rewrite (nth_indep _ d (negb (existsb (Nat.eqb 0) idxs))) by (rewrite map_length, seq_length; auto).
  rewrite (map_nth (fun i => negb (existsb (Nat.eqb i) idxs))), seq_nth by auto. reflexivity.
Qed.

(** number of deleted entries *)
Lemma flags_count n idxs : NoDup idxs -> (forall i, In i idxs -> (i < n)%nat) ->
  countb negb (flags 0 n idxs) = length idxs.
Proof.
  intros N B. unfold countb, flags.
  assert (P : Permutation idxs (filter (fun i => existsb (Nat.eqb i) idxs) (seq 0 n))).
  { apply NoDup_Permutation; auto.
    - apply NoDup_filter, seq_NoDup.
    - intros x. rewrite filter_In, existsb_In, in_seq. split; intros; [split; auto|tauto].
      specialize (B x H); lia. }
  rewrite (Permutation_length P). clear. induction (seq 0 n) as [|a l IH]; [reflexivity|].
  cbn [map filter]. rewrite Bool.negb_involutive. destruct (existsb (Nat.eqb a) idxs); cbn [length]; lia.
Qed.

Lemma countb_split {A} (p : A -> bool) l : (countb p l + countb (fun x => negb (p x)) l = length l)%nat.
Proof.
  unfold countb. induction l as [|a l IH]; [reflexivity|]. cbn [filter]. destruct (p a); cbn [negb length]; lia.
Qed.

Lemma filter_fst_combine {A} fs (l : list A) : length fs = length l -> length (keepf fs l) = countb id fs.
Proof.
  unfold keepf, countb. rewrite map_length. revert l; induction fs as [|f fs IH]; intros [|x l] L; try discriminate L; auto.
  cbn [combine filter fst]. unfold id at 1. destruct f; cbn [length]; rewrite IH; auto.
Qed.

(* ------------------------------------------------------------------ *)
(** * Stores of layouts *)
Lemma argmin_ok l : l <> [] -> exists i, argmin l = Ok i /\ (i < length l)%nat /\
  forall j, (j < length l)%nat -> (nth i l 0 <= nth j l 0)%Q.
Proof. intros H. exact (argbest_spec _ _ min_ordering l H). Qed.

Lemma In_upd {A} i (v x : A) l : In x (upd i v l) -> x = v \/ In x l.
Proof.
  revert i; induction l as [|h t IH]; intros [|i] H; cbn in *; auto.
  - destruct H; auto.
  - destruct H as [H|H]; auto. apply IH in H; tauto.
Qed.

Definition from_events {X} (events : list (Q * X)) (st : store X) : Prop :=
  (forall x, In x (st_perfect st) -> exists p, In (p, x) events /\ (p == 0)%Q) /\
  (forall e, In e (st_imperfect st) -> In e events).

Lemma record_from {X} same n evs st e st' : In e evs -> @from_events X evs st -> record same n st e = Ok st' -> from_events evs st'.
Proof.
  intros He [F1 F2] R. destruct e as [p x]. unfold record in R.
  destruct (Qeq_bool p 0) eqn:P0.
  - destruct (existsb _ _); injection R as <-; split; auto. cbn [st_perfect].
    intros y Hy. apply in_app_or in Hy. destruct Hy as [Hy|[<-|[]]]; auto.
    exists p; split; auto. apply Qeq_bool_iff; auto.
  - destruct (n <=? _)%nat.
    + destruct (map fst (st_imperfect st)) as [|a l] eqn:E; [discriminate|].
      destruct (Qltb p _); [|injection R as <-; split; auto].
      destruct (existsb _ _); [injection R as <-; split; auto|].
      destruct (argmin (a :: l)) as [i|]; cbn [bind] in R; [|discriminate]. injection R as <-.
      split; auto. cbn [st_imperfect]. intros y Hy. apply In_upd in Hy. destruct Hy as [->|]; auto.
    + destruct (existsb _ _); injection R as <-; split; auto. cbn [st_imperfect].
      intros y Hy. apply in_app_or in Hy. destruct Hy as [Hy|[<-|[]]]; auto.
Qed.

Lemma generate_from {X} same n evs : forall l st st', incl l evs -> @from_events X evs st ->
  generate same n st l = Ok st' -> from_events evs st'.
Proof.
  induction l as [|e l IH]; intros st st' I F G; cbn [generate] in G.
  - injection G as <-; auto.
  - destruct (n <=? _)%nat; [injection G as <-; auto|].
    destruct (record same n st e) as [s1|] eqn:R; cbn [bind] in G; [|discriminate].
    apply (IH s1 st'); auto.
    + intros y Hy; apply I; right; auto.
    + eapply record_from; eauto. apply I; left; auto.
Qed.

(** perfect layouts are pairwise different, and at most n *)
Lemma record_perfect {X} (same : X -> X -> bool) n st e st' : record same n st e = Ok st' ->
  st_perfect st' = st_perfect st \/
  (exists x, st_perfect st' = st_perfect st ++ [x] /\ existsb (same x) (st_perfect st) = false).
Proof.
  intros R. destruct e as [p x]. unfold record in R.
  destruct (Qeq_bool p 0) eqn:P0.
  - destruct (existsb _ _) eqn:E; injection R as <-; auto. right; exists x; auto.
  - left. destruct (n <=? _)%nat.
    + destruct (map fst (st_imperfect st)) as [|a l]; [discriminate|].
      destruct (Qltb p _); [|injection R as <-; auto].
      destruct (existsb _ _); [injection R as <-; auto|].
      destruct (argmin (a :: l)) as [i|]; cbn [bind] in R; [|discriminate]. injection R as <-; reflexivity.
    + destruct (existsb _ _); injection R as <-; auto.
Qed.

(** later entries differ from earlier ones *)
Fixpoint distinct {X} (same : X -> X -> bool) (l : list X) : Prop :=
  match l with [] => True | x :: t => (forall y, In y t -> same y x = false) /\ distinct same t end.
Lemma distinct_app {X} (same : X -> X -> bool) l x : distinct same l -> existsb (same x) l = false -> distinct same (l ++ [x]).
Proof.
  induction l as [|a l IH]; intros D E; cbn [app distinct].
  - split; auto. intros y [].
  - cbn [existsb] in E. apply Bool.orb_false_elim in E. destruct E as [E1 E2]. destruct D as [D1 D2].
    split; auto. intros y Hy. apply in_app_or in Hy. destruct Hy as [Hy|[<-|[]]]; auto.
Qed.

Lemma generate_perfect {X} (same : X -> X -> bool) n : forall l st st', distinct same (st_perfect st) ->
  (length (st_perfect st) <= n)%nat -> generate same n st l = Ok st' ->
  distinct same (st_perfect st') /\ (length (st_perfect st') <= n)%nat.
Proof.
  induction l as [|e l IH]; intros st st' D L G; cbn [generate] in G.
  - injection G as <-; auto.
  - destruct (n <=? length (st_perfect st))%nat eqn:N; [injection G as <-; auto|]. apply Nat.leb_gt in N.
    destruct (record same n st e) as [s1|] eqn:R; cbn [bind] in G; [|discriminate].
    destruct (record_perfect same n st e s1 R) as [E|[x [E Ex]]]; apply (IH s1 st' ); rewrite ?E; auto.
    + apply distinct_app; auto.
    + rewrite app_length; cbn; lia.
Qed.

Lemma record_ok {X} (same : X -> X -> bool) n st e : (1 <= n)%nat -> exists st', record same n st e = Ok st'.
Proof.
  intros Hn. destruct e as [p x]. unfold record.
  destruct (Qeq_bool p 0); [destruct (existsb _ _); eauto|].
  destruct (n <=? length (st_imperfect st))%nat eqn:L; [|destruct (existsb _ _); eauto].
  apply Nat.leb_le in L. destruct (map fst (st_imperfect st)) as [|a l] eqn:E.
  - apply (f_equal (@length Q)) in E. rewrite map_length in E. cbn in E. lia.
  - destruct (Qltb p _); [|eauto]. destruct (existsb _ _); [eauto|].
    destruct (argmin_ok (a :: l) ltac:(discriminate)) as [i [Ei _]]. rewrite Ei; cbn [bind]. eauto.
Qed.
Lemma generate_ok {X} (same : X -> X -> bool) n : (1 <= n)%nat -> forall l st, exists st', generate same n st l = Ok st'.
Proof.
  intros Hn. induction l as [|e l IH]; intros st; cbn [generate]; eauto.
  destruct (n <=? _)%nat; eauto. destruct (record_ok same n st e Hn) as [s1 ->]; cbn [bind]. apply IH.
Qed.

Lemma fill_spec {X} (d : X) : forall m ps xs, length ps = length xs -> ps <> [] ->
  exists r, fill d m ps xs = Ok r /\ length r = m /\ forall x, In x r -> In x xs.
Proof.
  induction m as [|m IH]; intros ps xs L N; cbn [fill].
  - exists []; cbn; repeat split; intros x [].
  - destruct (argmin_ok ps N) as [i [E [Hi _]]]. rewrite E; cbn [bind].
    destruct (IH (upd i (10000000 # 1)%Q ps) xs) as [r [E' [Lr I]]].
    + rewrite upd_length; auto.
    + intros C. apply (f_equal (@length Q)) in C. rewrite upd_length in C. destruct ps; [congruence|discriminate C].
    + rewrite E'; cbn [bind]. eexists; split; [reflexivity|]. split; [cbn; lia|].
      intros x [<-|Hx]; auto. apply nth_In; lia.
Qed.

(** what the generation of layouts returns *)
Lemma layouts_members {X} (same : X -> X -> bool) d n events timeout r :
  layouts same d n events timeout = Ok r ->
  (forall x, In x r -> exists p, In (p, x) events) /\
  (timeout = true -> length r = n) /\
  (timeout = false -> distinct same r /\ forall x, In x r -> exists p, In (p, x) events /\ (p == 0)%Q).
Proof.
  unfold layouts. destruct (generate same n empty_store events) as [st|] eqn:G; cbn [bind]; [|discriminate].
  assert (F : from_events events st).
  { eapply generate_from; eauto; [apply incl_refl|]. split; intros x []. }
  destruct (generate_perfect same n events empty_store st) as [D L]; cbn; auto; [lia|].
  destruct F as [F1 F2]. intros H. destruct timeout.
  - destruct (st_perfect st) as [|p0 ps] eqn:EP, (st_imperfect st) as [|i0 is] eqn:EI; try discriminate.
    + destruct (fill_spec d (n - 0) (map fst (i0 :: is)) (map snd (i0 :: is))) as [f [Ef [Lf If]]];
        [rewrite !map_length; auto | discriminate |].
      cbn [length] in H. rewrite Ef in H; cbn [bind app] in H. injection H as <-.
      split; [|split; [intros; lia|discriminate]].
      intros x Hx. apply If in Hx. apply in_map_iff in Hx. destruct Hx as [[p y] [E Hy]]. cbn in E; subst y. exists p; auto.
    + destruct (n - length (p0 :: ps))%nat as [|m] eqn:M.
      * cbn [fill bind] in H. rewrite app_nil_r in H. injection H as <-.
        split; [|split; [intros; cbn [length] in *; lia|discriminate]].
        intros x Hx. destruct (F1 x Hx) as [p [Hp _]]; eauto.
      * cbn [map fill argmin argbest bind] in H. discriminate.
    + destruct (fill_spec d (n - length (p0 :: ps)) (map fst (i0 :: is)) (map snd (i0 :: is))) as [f [Ef [Lf If]]];
        [rewrite !map_length; auto | discriminate |].
      rewrite Ef in H; cbn [bind] in H. injection H as <-.
      split; [|split; [intros; change (p0 :: ps ++ f) with ((p0 :: ps) ++ f); rewrite app_length; cbn [length] in *; lia|discriminate]].
      intros x Hx. change (p0 :: ps ++ f) with ((p0 :: ps) ++ f) in Hx. apply in_app_or in Hx. destruct Hx as [Hx|Hx].
      * destruct (F1 x Hx) as [p [Hp _]]; eauto.
      * apply If in Hx. apply in_map_iff in Hx. destruct Hx as [[p y] [E Hy]]. cbn in E; subst y. exists p; auto.
  - injection H as <-. split; [|split; [discriminate|]].
    + intros x Hx. destruct (F1 x Hx) as [p [Hp _]]; eauto.
    + intros _. split; auto.
Qed.

(** a store with one place keeps the best imperfect layout *)
Lemma generate_single {X} (same : X -> X -> bool) (f : X -> Q) :
  (forall x y, same x y = true -> f x == f y)%Q ->
  forall l y, (forall x, In x l -> ~ f x == 0)%Q ->
  exists z, generate same 1 {| st_perfect := []; st_imperfect := [(f y, y)] |} (map (fun x => (f x, x)) l)
            = Ok {| st_perfect := []; st_imperfect := [(f z, z)] |} /\
    In z (y :: l) /\ forall x, In x (y :: l) -> (f z <= f x)%Q.
Proof.
  intros Hs. induction l as [|x l IH]; intros y N; cbn [map generate].
  - exists y; split; auto. split; [left; auto|]. intros x [<-|[]]; lra.
  - cbn [st_perfect length]. change (1 <=? 0)%nat with false. cbv iota. unfold record. cbn [st_imperfect st_perfect length map fst snd].
    destruct (Qeq_bool (f x) 0) eqn:E0; [apply Qeq_bool_iff in E0; exfalso; apply (N x); auto; left; auto|].
    change (1 <=? 1)%nat with true. cbv iota. cbn [qmax existsb].
    assert (Step : forall w, (f w <= f y)%Q -> (f w <= f x)%Q -> (w = y \/ w = x) ->
      exists z, generate same 1 {| st_perfect := []; st_imperfect := [(f w, w)] |} (map (fun x => (f x, x)) l)
            = Ok {| st_perfect := []; st_imperfect := [(f z, z)] |} /\
        In z (y :: x :: l) /\ forall u, In u (y :: x :: l) -> (f z <= f u)%Q).
    { intros w W1 W2 W3. destruct (IH w) as [z [G [I M]]]; [intros; apply N; right; auto|].
      exists z; split; auto. split.
      - destruct I as [<-|I]; [|right; right; auto]. destruct W3; subst; [left|right; left]; auto.
      - pose proof (M w ltac:(left; auto)). intros u [<-|[<-|Hu]]; try lra. apply M; right; auto. }
    destruct (Qltb (f x) (f y)) eqn:E1.
    + apply Qltb_true in E1. destruct (same x y) eqn:E2; cbn [orb].
      * apply Hs in E2. lra.
      * change (argmin [f y]) with (@Ok nat 0%nat); cbn [bind upd]. cbn [snd]; rewrite E2; cbn [orb bind]; apply Step; auto; lra.
    + apply Qltb_false in E1. cbn [bind]. apply Step; auto; lra.
Qed.

Lemma NoDup_app_disj_gen {A} (l m : list A) : NoDup l -> NoDup m -> (forall x, In x l -> ~ In x m) -> NoDup (l ++ m).
Proof.
  induction 1 as [|a l N H IH]; intros Nm D; cbn [app]; auto. constructor.
  - intros X. apply in_app_or in X. destruct X as [X|X]; [auto|]. apply (D a); [left; auto|auto].
  - apply IH; auto. intros x Hx. apply D; right; auto.
Qed.

Lemma filter_all {A} (p : A -> bool) l : (forall x, In x l -> p x = true) -> filter p l = l.
Proof.
  induction l as [|a l IH]; intros H; cbn; auto. rewrite H by (left; auto). f_equal; apply IH; intros; apply H; right; auto.
Qed.

(* ------------------------------------------------------------------ *)
(** * the loop over the layouts *)
Lemma upd_app_mid {A} (l r : list A) x y : upd (length l) y (l ++ x :: r) = l ++ y :: r.
Proof. induction l as [|a l IH]; cbn; [reflexivity|]. rewrite IH; reflexivity. Qed.

Lemma nth_upd_neq {A} i j (x d : A) l : i <> j -> nth i (upd j x l) d = nth i l d.
Proof. intros H. rewrite nth_upd. destruct (Nat.eqb_spec j i); [congruence|reflexivity]. Qed.

Section LOOP.
Context {D : Type}.

(** layouts with designs of non-zero objective fill the tables in order *)
Lemma loop_prefix (void : D) : forall (before : list (Q * D)) (done : list (Q * D)) (rest : list (outcome D)),
  (forall e, In e before -> ~ (fst e == 0)%Q) ->
  outer_loop (map Some before ++ rest) (length done)
    (map (fun e => Some (fst e)) done ++ repeat None (length before + length rest),
     map snd done ++ repeat void (length before + length rest)) =
  outer_loop rest (length (done ++ before))
    (map (fun e => Some (fst e)) (done ++ before) ++ repeat None (length rest),
     map snd (done ++ before) ++ repeat void (length rest)).
Proof.
  induction before as [|[o d] before IH]; intros done rest H.
  - rewrite app_nil_r. reflexivity.
  - cbn [map app outer_loop length plus repeat fst snd].
    assert (U1 : forall r, upd (length done) (Some o) (map (fun e : Q * D => Some (fst e)) done ++ None :: r) = map (fun e : Q * D => Some (fst e)) done ++ Some o :: r)
      by (intros r; rewrite <- (map_length (fun e : Q * D => Some (fst e)) done) at 1; apply upd_app_mid).
    assert (U2 : forall r, upd (length done) d (map snd done ++ void :: r) = map snd done ++ d :: r)
      by (intros r; rewrite <- (map_length (@snd Q D) done) at 1; apply upd_app_mid).
    rewrite U1, U2.
    destruct (Qeq_bool o 0) eqn:E; [apply Qeq_bool_iff in E; exfalso; apply (H (o, d)); [left; auto|exact E]|].
    specialize (IH (done ++ [(o, d)]) rest ltac:(intros; apply H; right; auto)).
    rewrite !map_app, <- !app_assoc in IH. cbn [map app fst snd] in IH.
    rewrite app_length in IH. cbn [length] in IH. rewrite Nat.add_1_r in IH. rewrite IH, !map_app, <- !app_assoc. reflexivity.
Qed.

(** entries before the current position do not change any more *)
Lemma loop_low : forall (l : list (outcome D)) step (t : results_tables D),
  let t' := outer_loop l step t in
  (forall i d, (i < step)%nat -> nth i (fst t') d = nth i (fst t) d) /\
  (forall i d, (i < step)%nat -> nth i (snd t') d = nth i (snd t) d) /\
  length (fst t') = length (fst t) /\ length (snd t') = length (snd t).
Proof.
  induction l as [|[[o d]|] l IH]; intros step t; cbn [outer_loop].
  - auto.
  - destruct (Qeq_bool o 0).
    + cbn [fst snd]. rewrite !upd_length. repeat split; auto; intros; apply nth_upd_neq; lia.
    + destruct (IH (S step) (upd step (Some o) (fst t), upd step d (snd t))) as [A [B [C E]]]. cbn [fst snd] in *.
      rewrite !upd_length in *. repeat split; auto.
      * intros i x Hi. rewrite A by lia. apply nth_upd_neq; lia.
      * intros i x Hi. rewrite B by lia. apply nth_upd_neq; lia.
  - destruct (IH (S step) t) as [A [B [C E]]]. split; [intros; apply A; lia|]. split; [intros; apply B; lia|]. auto.
Qed.

Lemma first_nan_app (l r : list (option Q)) : (forall x, In x l -> x <> None) ->
  first_nan (l ++ r) = option_map (fun k => (length l + k)%nat) (first_nan r).
Proof.
  induction l as [|[x|] l IH]; intros H; cbn [app first_nan length].
  - destruct (first_nan r); reflexivity.
  - rewrite IH by (intros; apply H; right; auto). destruct (first_nan r); reflexivity.
  - exfalso; apply (H None); [left|]; auto.
Qed.
Lemma first_nan_at (l : list (option Q)) k : (k < length l)%nat -> nth k l None = None ->
  (forall i, (i < k)%nat -> nth i l None <> None) -> first_nan l = Some k.
Proof.
  revert k; induction l as [|[x|] l IH]; intros k L N B; cbn [first_nan].
  - cbn in L; lia.
  - destruct k as [|k]; [discriminate N|]. rewrite (IH k); [reflexivity|cbn in L; lia|exact N|].
    intros i Hi. apply (B (S i)). lia.
  - destruct k as [|k]; [reflexivity|]. exfalso; apply (B 0%nat); [lia|reflexivity].
Qed.
Lemma argmin_nan_at (l : list (option Q)) k : first_nan l = Some k -> argmin_nan l = Ok k.
Proof. unfold argmin_nan. destruct l; [discriminate|]. intros ->; reflexivity. Qed.
End LOOP.
