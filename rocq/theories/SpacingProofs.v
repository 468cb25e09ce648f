(* SpacingProofs.v - lemmas about Spacing.v *)
From Verif Require Import Base Divers DiversProofs Spacing.
From Coq Require Import Lqa.

(* ------------------------------------------------------------------ *)
(** * Specification *)

(** positions of the dropped plies of a line, in increasing order *)
Definition drops (ss : list Z) : list nat :=
  filter (fun i => nth i ss 0 =? -1) (seq 0 (length ss)).

(** kept plies missing to reach [md] between consecutive dropped positions *)
Fixpoint missing (md : Z) (ps : list nat) : Z :=
  match ps with
  | p :: ((q :: _) as t) =>
      Z.max 0 (md - (Z.of_nat q - Z.of_nat p - 1)) + missing md t
  | _ => 0
  end.

Definition dropped (ss : list Z) (i : nat) : Prop := nth_error ss i = Some (-1).

(** any two dropped plies are separated by at least md plies *)
Definition well_spaced (md : Z) (ss : list Z) : Prop :=
  forall p q, (p < q)%nat -> dropped ss p -> dropped ss q ->
              md <= Z.of_nat q - Z.of_nat p - 1 \/
              (exists r, (p < r < q)%nat /\ dropped ss r).

(* ------------------------------------------------------------------ *)
Definition drops_from (i : nat) (ss : list Z) : list nat :=
  filter (fun i => nth i ss 0 =? -1) (seq i (length ss - i)).

Lemma next_drop_spec ss : forall k i, (i + k = length ss)%nat ->
  let n := next_drop (skipn i ss) i in
  (i <= n <= length ss)%nat /\
  drops_from i ss = if Nat.ltb n (length ss) then n :: drops_from (S n) ss else [].
Proof.
  induction k as [|k IH]; intros i H; cbn zeta.
  - rewrite skipn_all2 by lia; cbn [next_drop].
    split; [lia|]. unfold drops_from; replace (length ss - i)%nat with 0%nat by lia.
    destruct (Nat.ltb_spec i (length ss)); [lia|]; reflexivity.
  - destruct (skipn i ss) as [|x r] eqn:E.
    { apply (f_equal (@length Z)) in E; rewrite skipn_length in E; cbn in E; lia. }
    assert (Ex : nth i ss 0 = x).
    { rewrite <- (Nat.add_0_r i), <- nth_skipn, E; reflexivity. }
    assert (Er : r = skipn (S i) ss).
    { change (S i) with (1 + i)%nat; rewrite <- skipn_skipn, E; reflexivity. }
    cbn [next_drop].
    assert (D : drops_from i ss = if x =? -1 then i :: drops_from (S i) ss else drops_from (S i) ss).
    { unfold drops_from; replace (length ss - i)%nat with (S (length ss - S i)) by lia.
      cbn [seq filter]; rewrite Ex; reflexivity. }
    rewrite D; destruct (x =? -1) eqn:Ed.
    + split; [lia|]. destruct (Nat.ltb_spec i (length ss)); [reflexivity | lia].
    + rewrite Er; destruct (IH (S i) ltac:(lia)) as [H1 H2]; split; [lia | exact H2].
Qed.

Lemma missing_cons2 md p q t :
  missing md (p :: q :: t) = Z.max 0 (md - (Z.of_nat q - Z.of_nat p - 1)) + missing md (q :: t).
Proof. reflexivity. Qed.

Lemma spacing_loop_spec ss md : forall fuel i1 i2 penal,
  i2 = S i1 -> (S (length ss) - i2 < fuel)%nat ->
  spacing_loop fuel ss md i1 i2 penal = Ok (penal + missing md (i1 :: drops_from i2 ss)).
Proof.
  induction fuel as [|fuel IH]; intros i1 i2 penal -> Hf; [lia|].
  cbn [spacing_loop]; destruct (Nat.ltb_spec (S i1) (length ss)) as [H|H].
  - destruct (next_drop_spec ss (length ss - S i1) (S i1) ltac:(lia)) as [Hn Hd].
    set (n := next_drop (skipn (S i1) ss) (S i1)) in *; cbn zeta.
    rewrite IH by lia; f_equal; rewrite Hd.
    destruct (Nat.ltb_spec n (length ss)) as [Hl|Hl]; cbn [andb].
    + rewrite missing_cons2.
      destruct (Z.ltb_spec (Z.of_nat n - Z.of_nat i1 - 1) md); lia.
    + unfold drops_from; replace (length ss - S n)%nat with 0%nat by lia; reflexivity.
  - unfold drops_from; replace (length ss - S i1)%nat with 0%nat by lia; cbn.
    rewrite Z.add_0_r; reflexivity.
Qed.

Lemma spacing_1ss_value ss md :
  ss <> [] ->
  calc_penalty_spacing_1ss ss md =
  Ok (inject_Z (missing md (drops ss)) / inject_Z (zlen ss))%Q.
Proof.
  intros Hne; unfold calc_penalty_spacing_1ss.
  rewrite spacing_loop_spec by lia; cbn [bind].
  assert (Nat.eqb (length ss) 0 = false) as -> by (destruct ss; [congruence | reflexivity]).
  do 2 f_equal; f_equal; rewrite Z.add_0_l.
  destruct (next_drop_spec ss (length ss) 0 ltac:(lia)) as [Hn Hd]; cbn [skipn] in Hn, Hd.
  set (n := next_drop ss 0) in *.
  unfold drops; replace (length ss) with (length ss - 0)%nat by lia.
  change (filter (fun i => nth i ss 0 =? -1) (seq 0 (length ss - 0))) with (drops_from 0 ss).
  rewrite Hd; destruct (Nat.ltb_spec n (length ss)); auto.
  unfold drops_from; replace (length ss - S n)%nat with 0%nat by lia; reflexivity.
Qed.

Lemma spacing_1ss_empty md : calc_penalty_spacing_1ss [] md = Err ZeroDivision.
Proof. reflexivity. Qed.

Lemma missing_nonneg md : forall ps, 0 <= missing md ps.
Proof.
  induction ps as [|p [|q t] IH]; [cbn; lia|cbn; lia|].
  rewrite missing_cons2; lia.
Qed.

Lemma drops_in ss i : In i (drops ss) <-> dropped ss i.
Proof.
  unfold drops, dropped; rewrite filter_In, in_seq, Z.eqb_eq; split.
  - intros [H1 H2]; rewrite <- H2; apply nth_error_nth'; lia.
  - intros H; assert (i < length ss)%nat by (apply nth_error_Some; congruence).
    split; [lia | apply nth_error_nth; exact H].
Qed.

Lemma filter_seq_ssorted (p : nat -> bool) : forall n i, StronglySorted lt (filter p (seq i n)).
Proof.
  induction n as [|n IH]; intros i; cbn [seq filter]; [constructor|].
  destruct (p i); auto; constructor; auto.
  apply Forall_forall; intros x Hx; apply filter_In in Hx; destruct Hx as [Hx _].
  apply in_seq in Hx; lia.
Qed.

Lemma missing_zero md : forall ps, StronglySorted lt ps ->
  (missing md ps = 0 <->
   forall p q, (p < q)%nat -> In p ps -> In q ps ->
     md <= Z.of_nat q - Z.of_nat p - 1 \/ exists r, (p < r < q)%nat /\ In r ps).
Proof.
  induction ps as [|a [|b t] IH]; intros Hs.
  - split; auto; intros _ p q _ [].
  - split; auto; intros _ p q H [->|[]] [->|[]]; lia.
  - rewrite missing_cons2; pose proof (missing_nonneg md (b :: t)) as Hnn.
    inversion Hs as [|? ? Hs' Hf]; subst; specialize (IH Hs').
    rewrite Forall_forall in Hf.
    assert (Hb : forall x, In x t -> (b < x)%nat).
    { inversion Hs' as [|? ? _ Hf']; subst; rewrite Forall_forall in Hf'; exact Hf'. }
    pose proof (Hf b (or_introl eq_refl)) as Hab.
    split.
    + intros H; assert (Hz : missing md (b :: t) = 0) by lia.
      intros p q Hpq [->|Hp] [Hq|Hq].
      * lia.
      * destruct (Nat.eq_dec q b) as [->|Hn]; [left; lia|].
        right; exists b; destruct Hq as [|Hq]; [congruence|]. specialize (Hb q Hq).
        split; [lia | cbn; auto].
      * subst q; specialize (Hf p Hp); lia.
      * destruct (proj1 IH Hz p q Hpq Hp Hq) as [|[r [H1 H2]]]; auto.
        right; exists r; split; auto; right; auto.
    + intros H.
      assert (missing md (b :: t) = 0) as ->.
      { apply IH; intros p q Hpq Hp Hq.
        destruct (H p q Hpq (or_intror Hp) (or_intror Hq)) as [|[r [H1 H2]]]; auto.
        right; exists r; split; auto; destruct H2 as [<-|]; auto.
        specialize (Hf p Hp); lia. }
      destruct (H a b Hab (or_introl eq_refl) (or_intror (or_introl eq_refl))) as [|[r [H1 H2]]]; [lia|].
      exfalso; destruct H2 as [->|[->|H2]]; [lia|lia|]. specialize (Hb r H2); lia.
Qed.

Lemma missing_drops_zero md ss : missing md (drops ss) = 0 <-> well_spaced md ss.
Proof.
  unfold well_spaced; rewrite missing_zero by apply filter_seq_ssorted.
  split; intros H p q Hpq Hp Hq.
  - apply drops_in in Hp, Hq; destruct (H p q Hpq Hp Hq) as [|[r [H1 H2]]]; auto.
    right; exists r; split; auto; apply drops_in; auto.
  - apply drops_in in Hp, Hq; destruct (H p q Hpq Hp Hq) as [|[r [H1 H2]]]; auto.
    right; exists r; split; auto; apply drops_in; auto.
Qed.

(** when md >= 0 the disjunction can be dropped by counting kept plies *)
Definition kept_between (ss : list Z) (p q : nat) : Z :=
  Z.of_nat (countb (fun x => negb (x =? -1)) (slice (S p) q ss)).

Lemma slice_split {A} a b c (l : list A) :
  (a <= b <= c)%nat -> slice a c l = slice a b l ++ slice b c l.
Proof.
  intros H; unfold slice.
  replace (c - a)%nat with ((b - a) + (c - b))%nat by lia.
  rewrite <- (firstn_skipn (b - a) (firstn (b - a + (c - b)) (skipn a l))).
  rewrite firstn_firstn, Nat.min_l by lia; f_equal.
  rewrite skipn_firstn_comm, skipn_skipn.
  f_equal; [lia|]; f_equal; lia.
Qed.

Lemma slice_one {A} a (l : list A) d :
  (a < length l)%nat -> slice a (S a) l = [nth a l d].
Proof.
  intros H; unfold slice; replace (S a - a)%nat with 1%nat by lia.
  destruct (skipn a l) as [|x r] eqn:E.
  - apply (f_equal (@length A)) in E; rewrite skipn_length in E; cbn in E; lia.
  - cbn [firstn]; rewrite <- (Nat.add_0_r a), <- nth_skipn, E; reflexivity.
Qed.

Lemma kept_between_free ss p q :
  (p < q <= length ss)%nat -> (forall r, (p < r < q)%nat -> ~ dropped ss r) ->
  kept_between ss p q = Z.of_nat q - Z.of_nat p - 1.
Proof.
  intros H Hn; unfold kept_between.
  assert (E : countb (fun x => negb (x =? -1)) (slice (S p) q ss) = length (slice (S p) q ss)).
  { unfold countb; f_equal.
    assert (G : forall l, (forall x, In x l -> x <> -1) -> filter (fun x => negb (x =? -1)) l = l).
    { induction l as [|y l IHl]; intros Hl; cbn [filter]; auto.
      destruct (Z.eqb_spec y (-1)) as [Ey|Ey]; cbn [negb].
      - exfalso; apply (Hl y (or_introl eq_refl)); exact Ey.
      - rewrite IHl; auto; intros x Hx; apply Hl; right; auto. }
    apply G; intros x Hx Ex; subst x.
    apply In_nth_error in Hx; destruct Hx as [k Hk].
    assert (Hk' : (k < q - S p)%nat).
    { rewrite <- (slice_length (S p) q ss) by lia. apply nth_error_Some; congruence. }
    apply (Hn (S p + k)%nat); [lia|].
    unfold dropped; apply nth_error_nth with (d := 0) in Hk.
    rewrite nth_slice in Hk by lia.
    rewrite <- Hk; apply nth_error_nth'; lia. }
  rewrite E, slice_length by lia; lia.
Qed.

Lemma kept_between_mono ss p r q :
  (p < r < q)%nat -> (q <= length ss)%nat ->
  kept_between ss p r <= kept_between ss p q /\ kept_between ss r q <= kept_between ss p q.
Proof.
  intros H Hq; unfold kept_between; split.
  - rewrite (slice_split (S p) r q) by lia; rewrite countb_app; lia.
  - rewrite (slice_split (S p) (S r) q) by lia; rewrite countb_app; lia.
Qed.

(** at least md kept plies between any two dropped ones *)
Definition spaced (md : Z) (ss : list Z) : Prop :=
  forall p q, (p < q)%nat -> dropped ss p -> dropped ss q -> md <= kept_between ss p q.

Lemma dropped_lt ss i : dropped ss i -> (i < length ss)%nat.
Proof. intros H; apply nth_error_Some; unfold dropped in H; congruence. Qed.

Lemma well_spaced_spaced md ss : well_spaced md ss <-> spaced md ss.
Proof.
  split.
  - intros H p q.
    assert (G : forall n p q, (q - p <= n)%nat -> (p < q)%nat -> dropped ss p -> dropped ss q ->
               md <= kept_between ss p q).
    { induction n as [|n IH]; intros p' q' Hn Hpq Hp Hq; [lia|].
      destruct (in_dec Nat.eq_dec 1%nat []) as [[]|_].
      destruct (existsb (fun r => nth r ss 0 =? -1) (seq (S p') (q' - S p'))) eqn:E.
      - apply existsb_exists in E; destruct E as [r [Hr Er]]; apply in_seq in Hr.
        apply Z.eqb_eq in Er; pose proof (dropped_lt _ _ Hq).
        assert (Dr : dropped ss r) by (unfold dropped; rewrite <- Er; apply nth_error_nth'; lia).
        pose proof (IH p' r ltac:(lia) ltac:(lia) Hp Dr).
        pose proof (kept_between_mono ss p' r q' ltac:(lia) ltac:(lia)); lia.
      - assert (Hf : forall r, (p' < r < q')%nat -> ~ dropped ss r).
        { intros r Hr D; pose proof (dropped_lt _ _ D).
          assert (existsb (fun r => nth r ss 0 =? -1) (seq (S p') (q' - S p')) = true); [|congruence].
          apply existsb_exists; exists r; rewrite in_seq; split; [lia|].
          apply Z.eqb_eq, nth_error_nth, D. }
        pose proof (dropped_lt _ _ Hq).
        rewrite kept_between_free by (auto; lia).
        destruct (H p' q' Hpq Hp Hq) as [|[r [H1 H2]]]; auto.
        exfalso; apply (Hf r H1 H2). }
    apply (G (q - p)%nat); lia.
  - intros H p q Hpq Hp Hq.
    destruct (existsb (fun r => nth r ss 0 =? -1) (seq (S p) (q - S p))) eqn:E.
    + right; apply existsb_exists in E; destruct E as [r [Hr Er]]; apply in_seq in Hr.
      apply Z.eqb_eq in Er; pose proof (dropped_lt _ _ Hq).
      exists r; split; [lia|]. unfold dropped; rewrite <- Er; apply nth_error_nth'; lia.
    + left; pose proof (dropped_lt _ _ Hq).
      rewrite <- (kept_between_free ss p q); auto; [lia|].
      intros r Hr D.
      assert (existsb (fun r => nth r ss 0 =? -1) (seq (S p) (q - S p)) = true); [|congruence].
      apply existsb_exists; exists r; rewrite in_seq; split; [lia|].
      apply Z.eqb_eq, nth_error_nth, D.
Qed.

Lemma zlen_posQ {A} (l : list A) : l <> [] -> (0 < inject_Z (zlen l))%Q.
Proof.
  intros H; change 0%Q with (inject_Z 0); rewrite <- Zlt_Qlt; unfold zlen.
  destruct l; [congruence | cbn [length]; lia].
Qed.

Lemma spacing_1ss_spec ss md :
  ss <> [] ->
  exists p, calc_penalty_spacing_1ss ss md = Ok p /\ (0 <= p)%Q /\
    (p * inject_Z (zlen ss) == inject_Z (missing md (drops ss)))%Q /\
    ((p == 0)%Q <-> spaced md ss).
Proof.
  intros H; rewrite spacing_1ss_value by exact H; eexists; split; [reflexivity|].
  pose proof (zlen_posQ ss H) as Hz.
  assert (E : (inject_Z (missing md (drops ss)) / inject_Z (zlen ss) * inject_Z (zlen ss)
               == inject_Z (missing md (drops ss)))%Q) by (field; lra).
  pose proof (missing_nonneg md (drops ss)) as Hm.
  split; [|split]; auto.
  - apply Qle_shift_div_l; auto; rewrite Qmult_0_l.
    change 0%Q with (inject_Z 0); rewrite <- Zle_Qle; exact Hm.
  - rewrite <- well_spaced_spaced, <- missing_drops_zero; split; intros X.
    + rewrite X, Qmult_0_l in E; change 0%Q with (inject_Z 0) in E.
      symmetry in E; apply (proj1 (inject_Z_injective _ _)) in E; exact E.
    + rewrite X; change (inject_Z 0) with 0%Q; unfold Qdiv; apply Qmult_0_l.
Qed.

(* ------------------------------------------------------------------ *)
(** * Structures *)

(** plies of the thinner panel between two columns *)
Definition kept (l : list Z) : Z := Z.of_nat (countb (fun x => negb (x =? -1)) l).

Lemma spaced_split md l :
  spaced md l <->
  forall l1 l2 l3, l = l1 ++ -1 :: l2 ++ -1 :: l3 -> md <= kept l2.
Proof.
  split.
  - intros H l1 l2 l3 ->.
    set (L := l1 ++ -1 :: l2 ++ -1 :: l3) in *.
    specialize (H (length l1) (length l1 + S (length l2))%nat ltac:(lia)).
    assert (D1 : dropped L (length l1)).
    { unfold dropped, L; rewrite nth_error_app2, Nat.sub_diag by lia; reflexivity. }
    assert (D2 : dropped L (length l1 + S (length l2))).
    { unfold dropped, L; rewrite nth_error_app2 by lia.
      replace (length l1 + S (length l2) - length l1)%nat with (S (length l2)) by lia.
      cbn [nth_error]; rewrite nth_error_app2, Nat.sub_diag by lia; reflexivity. }
    specialize (H D1 D2); unfold kept_between in H; unfold kept.
    assert (E : slice (S (length l1)) (length l1 + S (length l2)) L = l2); [|rewrite E in H; exact H].
    unfold slice, L.
    replace (l1 ++ -1 :: l2 ++ -1 :: l3) with ((l1 ++ [-1]) ++ l2 ++ -1 :: l3)
      by (rewrite <- app_assoc; reflexivity).
    rewrite skipn_app, (skipn_all2 (l1 ++ [-1])) by (rewrite app_length; cbn [length]; lia).
    replace (S (length l1) - length (l1 ++ [(-1)%Z]))%nat with 0%nat by (rewrite app_length; cbn [length]; lia).
    cbn [skipn app]; rewrite firstn_app.
    replace (length l1 + S (length l2) - S (length l1) - length l2)%nat with 0%nat by lia.
    cbn [firstn]; rewrite app_nil_r; apply firstn_all2; lia.
  - intros H p q Hpq Hp Hq.
    apply nth_error_split in Hp; destruct Hp as [l1 [r [-> L1]]].
    unfold dropped in Hq; rewrite nth_error_app2 in Hq by lia.
    destruct (q - length l1)%nat as [|k] eqn:Ek; [lia|]; cbn [nth_error] in Hq.
    apply nth_error_split in Hq; destruct Hq as [l2 [l3 [-> L2]]].
    specialize (H l1 l2 l3 eq_refl); unfold kept in H; unfold kept_between.
    assert (E : slice (S p) q (l1 ++ -1 :: l2 ++ -1 :: l3) = l2); [|rewrite E; exact H].
    unfold slice; subst p.
    replace (l1 ++ -1 :: l2 ++ -1 :: l3) with ((l1 ++ [-1]) ++ l2 ++ -1 :: l3)
      by (rewrite <- app_assoc; reflexivity).
    rewrite skipn_app, (skipn_all2 (l1 ++ [-1])) by (rewrite app_length; cbn [length]; lia).
    replace (S (length l1) - length (l1 ++ [(-1)%Z]))%nat with 0%nat by (rewrite app_length; cbn [length]; lia).
    cbn [skipn app]; rewrite firstn_app.
    replace (q - S (length l1) - length l2)%nat with 0%nat by lia.
    cbn [firstn]; rewrite app_nil_r; apply firstn_all2; lia.
Qed.

(** a table column seen at a boundary: (entry in the thinner panel, entry in the
    thicker panel); dropped at the boundary when only the thicker panel has it *)
Definition ends_here (col : Z * Z) : Prop := fst col = -1 /\ snd col <> -1.

(** at least md plies of the thinner panel lie between any two plies that end at the
    boundary between the two panels *)
Definition boundary_spaced (md : Z) (thin thick : list Z) : Prop :=
  forall c1 a c2 b c3, combine thin thick = c1 ++ a :: c2 ++ b :: c3 ->
    ends_here a -> ends_here b -> md <= kept (map fst c2).

(** every ply of the thinner panel is a ply of the thicker one *)
Definition covers (thin thick : list Z) : Prop :=
  Forall (fun col => snd col = -1 -> fst col = -1) (combine thin thick).

Lemma filter_split {A} (f : A -> bool) : forall L a x b,
  filter f L = a ++ x :: b ->
  exists l m, L = l ++ x :: m /\ filter f l = a /\ filter f m = b /\ f x = true.
Proof.
  induction L as [|y L IH]; intros a x b H; cbn [filter] in H; [destruct a; discriminate|].
  destruct (f y) eqn:E.
  - destruct a as [|z a]; cbn [app] in H; injection H as -> H.
    + exists [], L; auto.
    + destruct (IH a x b H) as [l [m [-> [H1 [H2 H3]]]]].
      exists (z :: l), m; cbn [app filter]; rewrite E, H1; auto.
  - destruct (IH a x b H) as [l [m [-> [H1 [H2 H3]]]]].
    exists (y :: l), m; cbn [app filter]; rewrite E; auto.
Qed.

Lemma kept_filter_fst c :
  Forall (fun col : Z * Z => snd col = -1 -> fst col = -1) c ->
  kept (map fst (filter (fun p => (negb (fst p =? -1) || negb (fst p =? snd p))%bool) c)) =
  kept (map fst c).
Proof.
  intros H; unfold kept; f_equal; induction H as [|[x y] t Hx Ht IH]; auto.
  cbn [map filter fst snd] in *; rewrite (countb_cons _ x).
  destruct (Z.eqb_spec x (-1)), (Z.eqb_spec x y); cbn [negb orb map fst]; auto;
    rewrite ?countb_cons, IH; auto.
  - destruct (Z.eqb_spec x (-1)); [reflexivity|lia].
  - destruct (Z.eqb_spec x (-1)); [lia|reflexivity].
  - destruct (Z.eqb_spec x (-1)); [lia|reflexivity].
Qed.

Lemma boundary_line_spec md thin thick :
  length thin = length thick -> covers thin thick ->
  (exists x, In x thick /\ x <> -1) ->
  exists line, boundary_line thin thick = Ok line /\ line <> [] /\
    (spaced md line <-> boundary_spaced md thin thick).
Proof.
  intros Hlen Hc [x [Hx Hx1]]; unfold boundary_line.
  rewrite Hlen, Nat.eqb_refl; cbn [negb].
  set (f := fun p : Z * Z => (negb (fst p =? -1) || negb (fst p =? snd p))%bool).
  set (L := combine thin thick) in *.
  assert (Hf : forall c, In c L -> (f c = true <-> snd c <> -1)).
  { intros c Hi; unfold covers in Hc; rewrite Forall_forall in Hc; specialize (Hc c Hi).
    unfold f; rewrite orb_true_iff, !negb_true_iff, !Z.eqb_neq; split; [|lia].
    intros [H|H]; intros E; specialize (Hc E); congruence. }
  assert (Hne : exists c, In c (filter f L)).
  { apply In_nth_error in Hx; destruct Hx as [k Hk].
    assert (k < length thick)%nat by (apply nth_error_Some; congruence).
    assert (Hc' : In (nth k thin 0, x) L).
    { apply nth_error_nth with (d := 0) in Hk; rewrite <- Hk.
      rewrite <- combine_nth by auto; apply nth_In; unfold L; rewrite combine_length; lia. }
    exists (nth k thin 0, x); apply filter_In; split; auto; apply Hf; auto. }
  assert (Hfx : forall l1 l2 l3 : list Z,
     map fst (filter f L) = l1 ++ -1 :: l2 ++ -1 :: l3 ->
     exists c1 a c2 b c3, L = c1 ++ a :: c2 ++ b :: c3 /\ ends_here a /\ ends_here b /\
        kept l2 = kept (map fst c2)).
  { intros l1 l2 l3 E.
    apply map_eq_app in E; destruct E as [k1 [k2 [E [<- E2]]]].
    apply map_eq_cons in E2; destruct E2 as [a [k3 [-> [Ea E3]]]].
    apply map_eq_app in E3; destruct E3 as [k4 [k5 [-> [<- E5]]]].
    apply map_eq_cons in E5; destruct E5 as [b [k6 [-> [Eb <-]]]].
    apply filter_split in E; destruct E as [c1 [r [EL [_ [Er Fa]]]]].
    apply filter_split in Er; destruct Er as [c2 [c3 [-> [E2 [_ Fb]]]]].
    assert (Ia : In a L) by (rewrite EL; apply in_or_app; right; left; auto).
    assert (Ib : In b L)
      by (rewrite EL; apply in_or_app; right; right; apply in_or_app; right; left; auto).
    exists c1, a, c2, b, c3; repeat split; auto.
    - apply Hf; auto.
    - apply Hf; auto.
    - rewrite <- E2; apply kept_filter_fst; unfold covers in Hc; fold L in Hc; rewrite EL in Hc.
      apply Forall_app in Hc; destruct Hc as [_ Hc]; inversion Hc as [|? ? _ Hc2]; subst.
      apply Forall_app in Hc2; apply Hc2. }
  assert (Hbx : forall c1 a c2 b c3, L = c1 ++ a :: c2 ++ b :: c3 -> ends_here a -> ends_here b ->
     exists l1 l2 l3, map fst (filter f L) = l1 ++ -1 :: l2 ++ -1 :: l3 /\
       kept l2 = kept (map fst c2)).
  { intros c1 a c2 b c3 EL [Ea Ea2] [Eb Eb2].
    assert (Ia : In a L) by (rewrite EL; apply in_or_app; right; left; auto).
    assert (Ib : In b L)
      by (rewrite EL; apply in_or_app; right; right; apply in_or_app; right; left; auto).
    assert (Fa : f a = true) by (apply Hf; auto).
    assert (Fb : f b = true) by (apply Hf; auto).
    exists (map fst (filter f c1)), (map fst (filter f c2)), (map fst (filter f c3)).
    split.
    - rewrite EL, filter_app, map_app; cbn [filter]; rewrite Fa; cbn [map].
      rewrite filter_app, map_app; cbn [filter]; rewrite Fb; cbn [map].
      rewrite Ea, Eb; reflexivity.
    - apply kept_filter_fst; unfold covers in Hc; fold L in Hc; rewrite EL in Hc.
      apply Forall_app in Hc; destruct Hc as [_ Hc]; inversion Hc as [|? ? _ Hc2]; subst.
      apply Forall_app in Hc2; apply Hc2. }
  assert (Hiff : spaced md (map fst (filter f L)) <-> boundary_spaced md thin thick).
  { rewrite spaced_split; split.
    - intros H c1 a c2 b c3 EL Ea Eb.
      destruct (Hbx c1 a c2 b c3 EL Ea Eb) as [l1 [l2 [l3 [E1 <-]]]]; eauto.
    - intros H l1 l2 l3 E; destruct (Hfx l1 l2 l3 E) as [c1 [a [c2 [b [c3 [EL [Ea [Eb ->]]]]]]]].
      eapply H; eauto. }
  destruct (memb (-1) (map fst (filter f L))) eqn:E.
  - eexists; split; [reflexivity|]; split; auto.
    destruct Hne as [c Hcin]; intros X; apply map_eq_nil in X; rewrite X in Hcin; destruct Hcin.
  - eexists; split; [reflexivity|]; split.
    + destruct Hne as [c Hcin]; intros X; apply map_eq_nil in X; rewrite X in Hcin; destruct Hcin.
    + rewrite <- Hiff; apply memb_false in E; split; intros _; apply spaced_split;
        intros l1 l2 l3 El; exfalso.
      * apply E; rewrite El; apply in_or_app; right; left; auto.
      * assert (Hi : In (-1) (map snd (filter f L)))
          by (rewrite El; apply in_or_app; right; left; auto).
        apply in_map_iff in Hi; destruct Hi as [c [Ec Hi]]; apply filter_In in Hi.
        destruct Hi as [Hi Fc]; apply Hf in Fc; congruence.
Qed.

(** the row of panel i in the layouts before, of and after the group *)
Definition full_row (before pdl after : list (list Z)) (i : nat) : list Z :=
  nth i before [] ++ nth i pdl [] ++ nth i after [].

Record table_ok (st : strip) (before pdl after : list (list Z)) : Prop := {
  t_before : length before = length pdl;
  t_after : length after = length pdl;
  t_cols : exists m, forall i, (i < length pdl)%nat -> length (full_row before pdl after i) = m;
  t_wide : forall r, In r pdl -> length r <> 1%nat;
  t_bound : forall i j, In (i, j) (s_boundaries st) -> (i < j < length pdl)%nat /\
              exists w, lookup (s_weights st) (i, j) = Ok w /\ (0 <= w)%Q;
  (* plies of a thinner panel are plies of the thicker ones *)
  t_nested : forall i j, (i < j < length pdl)%nat ->
     covers (full_row before pdl after i) (full_row before pdl after j);
  t_nonempty : forall i, (0 < i < length pdl)%nat ->
     exists x, In x (full_row before pdl after i) /\ x <> -1 }.

Lemma row_ok {A} (t : list A) i d : (i < length t)%nat -> row t i = Ok (nth i t d).
Proof. intros H; unfold row; rewrite (nth_error_nth' t d H); reflexivity. Qed.

Lemma boundary_penalty_ok st md before pdl after i j :
  table_ok st before pdl after -> In (i, j) (s_boundaries st) ->
  exists p w, boundary_penalty st md before (map Some pdl) after (i, j) = Ok p /\
    lookup (s_weights st) (i, j) = Ok w /\ (0 <= p)%Q /\
    ((p == 0)%Q <-> ((0 < w)%Q ->
       boundary_spaced md (full_row before pdl after i) (full_row before pdl after j))).
Proof.
  intros T Hb; destruct (t_bound _ _ _ _ T i j Hb) as [Hij [w [Hw Hw0]]].
  pose proof (t_before _ _ _ _ T); pose proof (t_after _ _ _ _ T).
  unfold boundary_penalty; cbn [fst snd].
  rewrite (row_ok _ i None), (row_ok _ j None) by (rewrite map_length; lia); cbn [bind].
  rewrite !(nth_indep (map Some pdl) None (Some [])) by (rewrite map_length; lia).
  rewrite !(map_nth Some pdl []).
  assert (Hi1 : Nat.eqb (length (nth i pdl [])) 1 = false)
    by (apply Nat.eqb_neq, (t_wide _ _ _ _ T), nth_In; lia).
  assert (Hj1 : Nat.eqb (length (nth j pdl [])) 1 = false)
    by (apply Nat.eqb_neq, (t_wide _ _ _ _ T), nth_In; lia).
  rewrite Hi1, Hj1; cbn [orb].
  rewrite (row_ok before i []), (row_ok after i []), (row_ok before j []), (row_ok after j []) by lia.
  cbn [bind].
  fold (full_row before pdl after i); fold (full_row before pdl after j).
  destruct (t_cols _ _ _ _ T) as [m Hm].
  destruct (boundary_line_spec md (full_row before pdl after i) (full_row before pdl after j))
    as [line [-> [Hne Hs]]].
  - rewrite !Hm by lia; reflexivity.
  - apply (t_nested _ _ _ _ T); lia.
  - apply (t_nonempty _ _ _ _ T); lia.
  - cbn [bind]; rewrite Hw; cbn [bind].
    destruct (spacing_1ss_spec line md Hne) as [p [-> [Hp [_ Hz]]]]; cbn [bind].
    exists (w * p)%Q, w; repeat split; auto.
    + apply Qmult_le_0_compat; auto.
    + intros X Hw1; apply Hs, Hz.
      apply Qmult_integral in X; destruct X as [X|X]; auto; lra.
    + intros X; destruct (Qlt_le_dec 0 w) as [Y|Y].
      * assert (p == 0)%Q as -> by (apply Hz, Hs, X, Y); ring.
      * assert (w == 0)%Q as -> by lra; ring.
Qed.

Lemma sum_boundaries_spec f (P : nat * nat -> Prop) : forall bs,
  (forall b, In b bs -> exists p, f b = Ok p /\ (0 <= p)%Q /\ ((p == 0)%Q <-> P b)) ->
  exists s, sum_boundaries f bs = Ok s /\ (0 <= s)%Q /\ ((s == 0)%Q <-> forall b, In b bs -> P b).
Proof.
  induction bs as [|b t IH]; intros H; cbn [sum_boundaries].
  - exists 0%Q; repeat split; try lra; intros _ b [].
  - destruct (H b (or_introl eq_refl)) as [p [-> [Hp Hz]]]; cbn [bind].
    destruct (IH (fun b' Hb => H b' (or_intror Hb))) as [s [-> [Hs Hz']]]; cbn [bind].
    exists (p + s)%Q; split; [reflexivity|]; split; [lra|]; split.
    + intros X b' [<-|Hb]; [apply Hz; lra | apply Hz'; auto; lra].
    + intros X. assert (p == 0)%Q by (apply Hz, X; left; auto).
      assert (s == 0)%Q by (apply Hz'; intros b' Hb; apply X; right; auto). lra.
Qed.

(** tables before/after default to empty rows *)
Definition or_empty (o : option (list (list Z))) (pdl : list (list Z)) : list (list Z) :=
  match o with Some t => t | None => repeat [] (length pdl) end.

Lemma calc_penalty_spacing_spec st md before pdl after :
  table_ok st (or_empty before pdl) pdl (or_empty after pdl) ->
  exists p, calc_penalty_spacing true md st before (map Some pdl) after = Ok p /\ (0 <= p)%Q /\
    ((p == 0)%Q <-> forall i j w, In (i, j) (s_boundaries st) ->
       lookup (s_weights st) (i, j) = Ok w -> (0 < w)%Q ->
       boundary_spaced md (full_row (or_empty before pdl) pdl (or_empty after pdl) i)
                          (full_row (or_empty before pdl) pdl (or_empty after pdl) j)).
Proof.
  intros T; unfold calc_penalty_spacing; cbn [negb]; rewrite map_length.
  fold (or_empty before pdl); fold (or_empty after pdl).
  set (b := or_empty before pdl) in *; set (a := or_empty after pdl) in *.
  destruct (sum_boundaries_spec (boundary_penalty st md b (map Some pdl) a)
    (fun ij => forall w, lookup (s_weights st) ij = Ok w -> (0 < w)%Q ->
       boundary_spaced md (full_row b pdl a (fst ij)) (full_row b pdl a (snd ij)))
    (s_boundaries st)) as [s [Es [Hs Hz]]].
  { intros [i j] Hij.
    destruct (boundary_penalty_ok st md b pdl a i j T Hij) as [p [w [E [Hw [Hp Hz]]]]].
    exists p; repeat split; auto.
    - intros X w' Hw'; rewrite Hw in Hw'; injection Hw' as <-; apply Hz; auto.
    - intros X; apply Hz; intros Y; apply (X w Hw Y). }
  exists s; split; [exact Es|]; split; auto; rewrite Hz; split.
  - intros X i j w Hij Hw Hw0; apply (X (i, j) Hij w Hw Hw0).
  - intros X [i j] Hij w Hw Hw0; apply (X i j w Hij Hw Hw0).
Qed.

Lemma calc_penalty_spacing_off md st before pdl after :
  calc_penalty_spacing false md st before pdl after = Ok 0%Q.
Proof. reflexivity. Qed.

(** never negative, whatever the tables *)
Lemma boundary_penalty_nonneg st md b pdl a ij p :
  (forall k w, lookup (s_weights st) k = Ok w -> (0 <= w)%Q) ->
  boundary_penalty st md b pdl a ij = Ok p -> (0 <= p)%Q.
Proof.
  intros Hw; unfold boundary_penalty.
  destruct (row pdl (fst ij)) as [[l1|]|]; cbn [bind]; try discriminate.
  2: { destruct (row pdl (snd ij)); cbn [bind]; intros X; [|discriminate]; injection X as <-; lra. }
  destruct (row pdl (snd ij)) as [[l2|]|]; cbn [bind]; try discriminate.
  2: { intros X; injection X as <-; lra. }
  destruct (Nat.eqb (length l1) 1 || Nat.eqb (length l2) 1)%bool.
  { intros X; injection X as <-; lra. }
  destruct (row b (fst ij)); cbn [bind]; try discriminate.
  destruct (row a (fst ij)); cbn [bind]; try discriminate.
  destruct (row b (snd ij)); cbn [bind]; try discriminate.
  destruct (row a (snd ij)); cbn [bind]; try discriminate.
  destruct (boundary_line _ _) as [line|]; cbn [bind]; try discriminate.
  destruct (lookup (s_weights st) ij) as [w|] eqn:E; cbn [bind]; try discriminate.
  destruct (calc_penalty_spacing_1ss line md) as [q|] eqn:Eq; cbn [bind]; try discriminate.
  intros X; injection X as <-; apply Qmult_le_0_compat; [eapply Hw; eauto|].
  destruct line as [|x t]; [discriminate|].
  destruct (spacing_1ss_spec (x :: t) md ltac:(discriminate)) as [q' [E' [H' _]]].
  rewrite Eq in E'; injection E' as <-; exact H'.
Qed.

Lemma calc_penalty_spacing_nonneg on st md before pdl after p :
  (forall k w, lookup (s_weights st) k = Ok w -> (0 <= w)%Q) ->
  calc_penalty_spacing on md st before pdl after = Ok p -> (0 <= p)%Q.
Proof.
  intros Hw; unfold calc_penalty_spacing; destruct on; cbn [negb].
  2: { intros X; injection X as <-; lra. }
  generalize (match before with Some t => t | None => repeat [] (length pdl) end) as b.
  generalize (match after with Some t => t | None => repeat [] (length pdl) end) as a.
  intros a b; revert p; induction (s_boundaries st) as [|ij t IH]; intros p; cbn [sum_boundaries].
  - intros X; injection X as <-; lra.
  - destruct (boundary_penalty st md b pdl a ij) as [q|] eqn:E; cbn [bind]; [|discriminate].
    destruct (sum_boundaries _ t) as [s|]; cbn [bind]; [|discriminate].
    intros X; injection X as <-.
    apply boundary_penalty_nonneg in E; auto. specialize (IH s eq_refl); lra.
Qed.

(** covering test *)
Lemma has_drop_at_first rows :
  (forall r, In r rows -> r <> []) ->
  exists b, has_drop_at 0 rows = Ok b /\ (b = false <-> forall r, In r rows -> nth 0 r 0 <> -1).
Proof.
  intros H; induction rows as [|r t IH]; cbn [has_drop_at fold_right].
  - exists false; split; auto; split; auto; intros _ r [].
  - destruct (IH (fun x Hx => H x (or_intror Hx))) as [b [E Hb]].
    unfold has_drop_at in E; rewrite E; cbn [bind].
    assert (Hr : r <> []) by (apply H; left; auto).
    pose proof (get_ok r 0 0) as G; change (Z.of_nat 0) with 0 in G.
    rewrite G by (destruct r; [congruence | cbn; lia]); cbn [bind].
    eexists; split; [reflexivity|]. rewrite orb_false_iff, Hb, Z.eqb_neq; split.
    + intros [H1 H2] x [<-|Hx]; auto.
    + intros X; split; [apply X; left; auto | intros x Hx; apply X; right; auto].
Qed.

Lemma get_last (r : list Z) d : r <> [] -> get r (-1) = Ok (last r d).
Proof.
  intros H; unfold get, py_get, zlen.
  assert (0 <=? -1 = false) as -> by reflexivity.
  assert (L : (1 <= length r)%nat) by (destruct r; [congruence | cbn; lia]).
  assert (- Z.of_nat (length r) <=? -1 = true) as -> by (apply Z.leb_le; lia).
  destruct (exists_last H) as [l' [x ->]].
  rewrite app_length; cbn [length].
  replace (Z.to_nat (Z.of_nat (length l' + 1) + -1)) with (length l') by lia.
  rewrite nth_error_app2, Nat.sub_diag by lia; cbn [nth_error]; rewrite last_last; reflexivity.
Qed.

Lemma has_drop_at_last rows :
  (forall r, In r rows -> r <> []) ->
  exists b, has_drop_at (-1) rows = Ok b /\ (b = false <-> forall r, In r rows -> last r 0 <> -1).
Proof.
  intros H; induction rows as [|r t IH]; cbn [has_drop_at fold_right].
  - exists false; split; auto; split; auto; intros _ r [].
  - destruct (IH (fun x Hx => H x (or_intror Hx))) as [b [E Hb]].
    unfold has_drop_at in E; rewrite E; cbn [bind].
    assert (Hr : r <> []) by (apply H; left; auto).
    rewrite (get_last r 0 Hr); cbn [bind].
    eexists; split; [reflexivity|]. rewrite orb_false_iff, Hb, Z.eqb_neq; split.
    + intros [H1 H2] x [<-|Hx]; auto.
    + intros X; split; [apply X; left; auto | intros x Hx; apply X; right; auto].
Qed.

Lemma full_row_empty pdl i :
  full_row (or_empty None pdl) pdl (or_empty None pdl) i = nth i pdl [].
Proof.
  unfold full_row, or_empty.
  rewrite !nth_repeat; cbn [app]; apply app_nil_r.
Qed.

Lemma check_ply_drop_rules_spec covering spacing md st rows :
  table_ok st (or_empty None rows) rows (or_empty None rows) ->
  (forall r, In r rows -> r <> []) ->
  (check_ply_drop_rules covering spacing md st rows = Ok tt <->
   (covering = true -> forall r, In r rows -> nth 0 r 0 <> -1 /\ last r 0 <> -1) /\
   (spacing = true -> forall i j w, In (i, j) (s_boundaries st) ->
      lookup (s_weights st) (i, j) = Ok w -> (0 < w)%Q ->
      boundary_spaced md (nth i rows []) (nth j rows []))).
Proof.
  intros T Hne; unfold check_ply_drop_rules.
  assert (HC : (if covering then
             do f <- has_drop_at 0 rows;
             do l <- has_drop_at (-1) rows;
             guard (f || l)%bool (Raised CoveringViolated)
           else Ok tt) = Ok tt <->
     (covering = true -> forall r, In r rows -> nth 0 r 0 <> -1 /\ last r 0 <> -1)).
  { destruct covering; [|split; auto; intros; discriminate].
    destruct (has_drop_at_first rows Hne) as [f [-> Hf]]; cbn [bind].
    destruct (has_drop_at_last rows Hne) as [l [-> Hl]]; cbn [bind].
    unfold guard; split.
    - destruct f, l; cbn; try discriminate; intros _ _ r Hr; split;
        [apply Hf | apply Hl]; auto.
    - intros X; specialize (X eq_refl).
      assert (f = false) as -> by (apply Hf; intros r Hr; apply (X r Hr)).
      assert (l = false) as -> by (apply Hl; intros r Hr; apply (X r Hr)). reflexivity. }
  assert (HS : (if spacing then
    do p <- calc_penalty_spacing spacing md st None (map Some rows) None;
    guard (negb (Qeq_bool p 0)) (Raised SpacingViolated)
  else Ok tt) = Ok tt <-> (spacing = true -> forall i j w, In (i, j) (s_boundaries st) ->
      lookup (s_weights st) (i, j) = Ok w -> (0 < w)%Q ->
      boundary_spaced md (nth i rows []) (nth j rows []))).
  { destruct spacing; [|split; auto; intros; discriminate].
    destruct (calc_penalty_spacing_spec st md None rows None T) as [p [-> [Hp Hz]]]; cbn [bind].
    setoid_rewrite full_row_empty in Hz.
    unfold guard; destruct (Qeq_bool p 0) eqn:E; cbn [negb].
    - apply Qeq_bool_iff in E; split; auto; intros _ _; apply Hz; auto.
    - split; [discriminate|]. intros X; specialize (X eq_refl).
      apply Hz in X; apply Qeq_bool_iff in X; congruence. }
  rewrite <- HC, <- HS.
  destruct (if covering then _ else _) as [[]|e]; cbn [bind]; [tauto|].
  split; [discriminate | intros [X _]; discriminate].
Qed.
