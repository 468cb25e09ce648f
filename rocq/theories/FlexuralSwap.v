(* FlexuralSwap.v - lemmas about the exchange of blocks of plies (Flexural.v, repair_flexural_1) *)
From Coq Require Import Lqa Sorted.
From Verif Require Import Base Uniq Constraints Guidelines SpecGuidelines GuidelinesProofs ConstraintsProofs Divide DivideProofs Moments MomentsProofs
  Search SearchProofs Membrane MembraneProofs Flexural FlexuralProofs.
Local Open Scope Z_scope.

(* ---------------- exchanging plies ---------------- *)
Lemma fill_length f s a ss : (f + s <= length ss)%nat -> length (fill_range f s a ss) = length ss.
Proof. intros H. unfold fill_range. rewrite !app_length, repeat_length, firstn_length, skipn_length. lia. Qed.
Lemma nth_repeat_lt (a d : Z) s k : (k < s)%nat -> nth k (repeat a s) d = a.
Proof. intros H. apply (repeat_spec s). apply nth_In. rewrite repeat_length. exact H. Qed.
Lemma nth_fill f s a ss k : (f + s <= length ss)%nat -> nth k (fill_range f s a ss) 0 = if (Nat.leb f k && Nat.ltb k (f + s))%bool then a else nth k ss 0.
Proof.
  intros H. unfold fill_range. destruct (Nat.leb_spec f k); cbn [andb].
  - rewrite app_nth2 by (rewrite firstn_length; lia). rewrite firstn_length, Nat.min_l by lia. destruct (Nat.ltb_spec k (f + s)).
    + rewrite app_nth1 by (rewrite repeat_length; lia). apply nth_repeat_lt. lia.
    + rewrite app_nth2 by (rewrite repeat_length; lia). rewrite repeat_length, nth_skipn. f_equal. lia.
  - rewrite app_nth1 by (rewrite firstn_length; lia). apply nth_firstn. lia.
Qed.

Lemma nodup_map_in {A B} (f : A -> B) l : (forall x y, In x l -> In y l -> f x = f y -> x = y) -> NoDup l -> NoDup (map f l).
Proof.
  induction l as [|a l IH]; intros H N; [constructor|]. inversion N; subst. cbn [map]. constructor.
  - intros I. apply in_map_iff in I. destruct I as (x & E & Hx). assert (x = a) by (apply H; [now right|now left|exact E]). subst. contradiction.
  - apply IH; [|assumption]. intros x y Hx Hy. apply H; now right.
Qed.
Lemma perm_invol (sg : nat -> nat) n : (forall p, (p < n)%nat -> (sg p < n)%nat /\ sg (sg p) = p) -> Permutation (map sg (seq 0 n)) (seq 0 n).
Proof.
  intros H. apply NoDup_Permutation_bis.
  - apply nodup_map_in; [|apply seq_NoDup]. intros x y Hx Hy E. apply in_seq in Hx. apply in_seq in Hy.
    rewrite <- (proj2 (H x ltac:(lia))), <- (proj2 (H y ltac:(lia))), E. reflexivity.
  - rewrite map_length. lia.
  - intros x Hx. apply in_map_iff in Hx. destruct Hx as (p & <- & Hp). apply in_seq in Hp. apply in_seq. destruct (H p ltac:(lia)). lia.
Qed.
Lemma nth_map_seq (l : list Z) : map (fun p => nth p l 0) (seq 0 (length l)) = l.
Proof.
  apply (list_ext _ _ 0); [rewrite map_length, seq_length; reflexivity|]. intros i Hi. rewrite map_length, seq_length in Hi.
  rewrite (nth_indep _ 0 (nth 0%nat l 0)) by (rewrite map_length, seq_length; exact Hi). rewrite (map_nth (fun p => nth p l 0)), seq_nth by exact Hi. reflexivity.
Qed.
Lemma perm_by_source (sg : nat -> nat) (l m : list Z) : length m = length l ->
  (forall p, (p < length l)%nat -> (sg p < length l)%nat /\ sg (sg p) = p) -> (forall p, (p < length l)%nat -> nth p m 0 = nth (sg p) l 0) -> Permutation m l.
Proof.
  intros L H E. rewrite <- (nth_map_seq m), <- (nth_map_seq l). rewrite L.
  etransitivity; [|apply Permutation_map, (perm_invol sg), H]. rewrite map_map.
  rewrite (map_ext_in _ (fun p => nth (sg p) l 0)); [reflexivity|]. intros p Hp. apply in_seq in Hp. apply E. lia.
Qed.

Definition inb (b : block) (k : nat) : bool := (Nat.leb (b_first b) k && Nat.ltb k (b_first b + b_size b))%bool.
Lemma inb_spec b k : inb b k = true <-> (b_first b <= k < b_first b + b_size b)%nat.
Proof. unfold inb. destruct (Nat.leb_spec (b_first b) k), (Nat.ltb_spec k (b_first b + b_size b)); cbn; split; (discriminate || lia || auto). Qed.
Lemma inb_false b k : inb b k = false <-> ~ (b_first b <= k < b_first b + b_size b)%nat.
Proof. rewrite <- inb_spec. destruct (inb b k); split; congruence. Qed.

Section Swap.
Variable c : cons.
Definition disjoint (b1 b2 : block) : Prop := (b_first b1 + b_size b1 <= b_first b2 \/ b_first b2 + b_size b2 <= b_first b1)%nat.
(** the region of the blocks *)
Definition region (n : nat) : nat := if sym c then (n / 2)%nat else n.
Lemma region_le n : (region n <= n)%nat.
Proof. unfold region. pose proof (half_facts n). destruct (sym c); lia. Qed.

Lemma swap_length b1 b2 ss : (b_first b1 + b_size b1 <= region (length ss))%nat -> (b_first b2 + b_size b2 <= region (length ss))%nat ->
  length (swap_blocks c b1 b2 ss) = length ss.
Proof.
  intros H1 H2. pose proof (region_le (length ss)). unfold swap_blocks. assert (L : length (fill_range (b_first b2) (b_size b2) (b_angle b1) (fill_range (b_first b1) (b_size b1) (b_angle b2) ss)) = length ss)
    by (rewrite !fill_length; [reflexivity| |rewrite fill_length]; lia).
  revert L. generalize (fill_range (b_first b2) (b_size b2) (b_angle b1) (fill_range (b_first b1) (b_size b1) (b_angle b2) ss)). intros s L.
  destruct (sym c); [|exact L]. rewrite !fill_length; [exact L| |rewrite fill_length]; rewrite ?L; lia.
Qed.
Lemma nth_swap b1 b2 ss k : (b_first b1 + b_size b1 <= region (length ss))%nat -> (b_first b2 + b_size b2 <= region (length ss))%nat -> (k < length ss)%nat ->
  nth k (swap_blocks c b1 b2 ss) 0 =
  (if (sym c && inb b2 (length ss - 1 - k))%bool then b_angle b1 else if (sym c && inb b1 (length ss - 1 - k))%bool then b_angle b2
   else if inb b2 k then b_angle b1 else if inb b1 k then b_angle b2 else nth k ss 0).
Proof.
  intros H1 H2 Hk. pose proof (region_le (length ss)). unfold swap_blocks. set (s := fill_range (b_first b2) (b_size b2) (b_angle b1) (fill_range (b_first b1) (b_size b1) (b_angle b2) ss)).
  assert (L : length s = length ss) by (unfold s; rewrite !fill_length; [reflexivity| |rewrite fill_length]; lia).
  assert (Es : nth k s 0 = if inb b2 k then b_angle b1 else if inb b1 k then b_angle b2 else nth k ss 0).
  { unfold s. rewrite nth_fill by (rewrite fill_length; lia). rewrite nth_fill by lia. reflexivity. }
  destruct (sym c) eqn:Y; cbn [andb]; [|exact Es]. unfold region in *. rewrite Y in *.
  assert (G : forall b, (b_first b + b_size b <= length ss)%nat -> (Nat.leb (length ss - b_first b - b_size b) k && Nat.ltb k (length ss - b_first b - b_size b + b_size b))%bool = inb b (length ss - 1 - k)).
  { intros b Hb. unfold inb. destruct (Nat.leb_spec (length ss - b_first b - b_size b) k), (Nat.ltb_spec k (length ss - b_first b - b_size b + b_size b)),
      (Nat.leb_spec (b_first b) (length ss - 1 - k)), (Nat.ltb_spec (length ss - 1 - k) (b_first b + b_size b)); cbn; lia. }
  rewrite nth_fill by (rewrite fill_length; rewrite ?L; lia). rewrite nth_fill by (rewrite L; lia). rewrite !G by lia. rewrite Es. reflexivity.
Qed.

(** where the ply at position p comes from *)
Definition hf (b1 b2 : block) (q : nat) : nat :=
  if inb b1 q then (q - b_first b1 + b_first b2)%nat else if inb b2 q then (q - b_first b2 + b_first b1)%nat else q.
Definition sg (n : nat) (b1 b2 : block) (p : nat) : nat :=
  if sym c then if (Nat.ltb p (n / 2)) then hf b1 b2 p else if Nat.ltb p (n - n / 2) then p else (n - 1 - hf b1 b2 (n - 1 - p))%nat else hf b1 b2 p.

Definition filled (b : block) (ss : list Z) : Prop := forall k, (b_first b <= k < b_first b + b_size b)%nat ->
  nth k ss 0 = b_angle b /\ (sym c = true -> nth (length ss - 1 - k) ss 0 = b_angle b).

Lemma swap_perm b1 b2 ss : (b_first b1 + b_size b1 <= region (length ss))%nat -> (b_first b2 + b_size b2 <= region (length ss))%nat ->
  disjoint b1 b2 -> b_size b1 = b_size b2 -> filled b1 ss -> filled b2 ss -> Permutation (swap_blocks c b1 b2 ss) ss.
Proof.
  intros H1 H2 D Sz F1 F2. pose proof (region_le (length ss)) as R. pose proof (half_facts (length ss)) as Hf.
  assert (Hh : forall q, (q < region (length ss))%nat -> (hf b1 b2 q < region (length ss))%nat /\ hf b1 b2 (hf b1 b2 q) = q /\ (inb b2 (hf b1 b2 q) = inb b1 q) /\ inb b1 (hf b1 b2 q) = inb b2 q).
  { intros q Hq. unfold hf. unfold disjoint in D. destruct (inb b1 q) eqn:I1.
    - apply inb_spec in I1. assert (I2 : inb b2 q = false) by (apply inb_false; lia). rewrite I2.
      assert (J1 : inb b1 (q - b_first b1 + b_first b2) = false) by (apply inb_false; lia).
      assert (J2 : inb b2 (q - b_first b1 + b_first b2) = true) by (apply inb_spec; lia). rewrite J1, J2. repeat split; lia.
    - destruct (inb b2 q) eqn:I2.
      + apply inb_spec in I2. assert (J1 : inb b1 (q - b_first b2 + b_first b1) = true) by (apply inb_spec; lia).
        assert (J2 : inb b2 (q - b_first b2 + b_first b1) = false) by (apply inb_false; lia). rewrite J1, J2. repeat split; lia.
      + rewrite I1, I2. repeat split; lia. }
  apply (perm_by_source (sg (length ss) b1 b2)); [apply swap_length; assumption| |].
  - intros p Hp. unfold sg. unfold region in *. destruct (sym c) eqn:Y.
    + destruct (Nat.ltb_spec p (length ss / 2)).
      * destruct (Hh p ltac:(lia)) as (A & B & _). destruct (Nat.ltb_spec (hf b1 b2 p) (length ss / 2)); [|lia]. lia.
      * destruct (Nat.ltb_spec p (length ss - length ss / 2)).
        -- destruct (Nat.ltb_spec p (length ss / 2)); [lia|]. destruct (Nat.ltb_spec p (length ss - length ss / 2)); lia.
        -- destruct (Hh (length ss - 1 - p)%nat ltac:(lia)) as (A & B & _).
           destruct (Nat.ltb_spec (length ss - 1 - hf b1 b2 (length ss - 1 - p)) (length ss / 2)); [lia|].
           destruct (Nat.ltb_spec (length ss - 1 - hf b1 b2 (length ss - 1 - p)) (length ss - length ss / 2)); [lia|].
           replace (length ss - 1 - (length ss - 1 - hf b1 b2 (length ss - 1 - p)))%nat with (hf b1 b2 (length ss - 1 - p)) by lia. lia.
    + destruct (Hh p ltac:(lia)) as (A & B & _). lia.
  - intros p Hp. rewrite nth_swap by assumption. unfold sg. unfold region, disjoint in *. destruct (sym c) eqn:Y; cbn [andb].
    + destruct (Nat.ltb_spec p (length ss / 2)).
      * assert (M1 : inb b1 (length ss - 1 - p) = false) by (apply inb_false; lia). assert (M2 : inb b2 (length ss - 1 - p) = false) by (apply inb_false; lia). rewrite M1, M2.
        unfold hf. destruct (inb b1 p) eqn:I1.
        -- apply inb_spec in I1. assert (I2 : inb b2 p = false) by (apply inb_false; lia). rewrite I2. symmetry. apply F2. lia.
        -- destruct (inb b2 p) eqn:I2; [|reflexivity]. apply inb_spec in I2. symmetry. apply F1. lia.
      * assert (M1 : inb b1 p = false) by (apply inb_false; lia). assert (M2 : inb b2 p = false) by (apply inb_false; lia). rewrite M1, M2.
        destruct (Nat.ltb_spec p (length ss - length ss / 2)).
        -- assert (N1 : inb b1 (length ss - 1 - p) = false) by (apply inb_false; lia). assert (N2 : inb b2 (length ss - 1 - p) = false) by (apply inb_false; lia). rewrite N1, N2. reflexivity.
        -- unfold hf. destruct (inb b1 (length ss - 1 - p)) eqn:I1.
           ++ apply inb_spec in I1. assert (I2 : inb b2 (length ss - 1 - p) = false) by (apply inb_false; lia). rewrite I2. symmetry. apply F2; [lia|exact Y].
           ++ destruct (inb b2 (length ss - 1 - p)) eqn:I2; [|f_equal; lia]. apply inb_spec in I2. symmetry. apply F1; [lia|exact Y].
    + unfold hf. destruct (inb b1 p) eqn:I1.
      * apply inb_spec in I1. assert (I2 : inb b2 p = false) by (apply inb_false; lia). rewrite I2. symmetry. apply F2. lia.
      * destruct (inb b2 p) eqn:I2; [|reflexivity]. apply inb_spec in I2. symmetry. apply F1. lia.
Qed.

Lemma nth_swap_low b1 b2 ss k : (b_first b1 + b_size b1 <= region (length ss))%nat -> (b_first b2 + b_size b2 <= region (length ss))%nat -> (k < region (length ss))%nat ->
  nth k (swap_blocks c b1 b2 ss) 0 = (if inb b2 k then b_angle b1 else if inb b1 k then b_angle b2 else nth k ss 0).
Proof.
  intros H1 H2 Hk. pose proof (region_le (length ss)). rewrite nth_swap by (assumption || lia). unfold region in *. pose proof (half_facts (length ss)).
  destruct (sym c); cbn [andb]; [|reflexivity].
  assert (M1 : inb b1 (length ss - 1 - k) = false) by (apply inb_false; lia). assert (M2 : inb b2 (length ss - 1 - k) = false) by (apply inb_false; lia). rewrite M1, M2. reflexivity.
Qed.
Lemma nth_swap_high b1 b2 ss k : sym c = true -> (b_first b1 + b_size b1 <= region (length ss))%nat -> (b_first b2 + b_size b2 <= region (length ss))%nat -> (k < region (length ss))%nat ->
  nth (length ss - 1 - k) (swap_blocks c b1 b2 ss) 0 = (if inb b2 k then b_angle b1 else if inb b1 k then b_angle b2 else nth (length ss - 1 - k) ss 0).
Proof.
  intros Y H1 H2 Hk. pose proof (region_le (length ss)). rewrite nth_swap by (assumption || lia). unfold region in *. pose proof (half_facts (length ss)).
  rewrite Y in *; cbn [andb]. replace (length ss - 1 - (length ss - 1 - k))%nat with k by lia.
  assert (M1 : inb b1 (length ss - 1 - k) = false) by (apply inb_false; lia). assert (M2 : inb b2 (length ss - 1 - k) = false) by (apply inb_false; lia). rewrite M1, M2. reflexivity.
Qed.
Lemma nth_swap_mid b1 b2 ss k : sym c = true -> (b_first b1 + b_size b1 <= region (length ss))%nat -> (b_first b2 + b_size b2 <= region (length ss))%nat ->
  (length ss / 2 <= k < length ss - length ss / 2)%nat -> nth k (swap_blocks c b1 b2 ss) 0 = nth k ss 0.
Proof.
  intros Y H1 H2 Hk. pose proof (half_facts (length ss)). rewrite nth_swap by (assumption || lia). unfold region in *. rewrite Y in *. cbn [andb].
  assert (M1 : inb b1 (length ss - 1 - k) = false) by (apply inb_false; lia). assert (M2 : inb b2 (length ss - 1 - k) = false) by (apply inb_false; lia).
  assert (M3 : inb b1 k = false) by (apply inb_false; lia). assert (M4 : inb b2 k = false) by (apply inb_false; lia). rewrite M1, M2, M3, M4. reflexivity.
Qed.

(* ---------------- the list of blocks ---------------- *)
Definition geom (b : block) : nat * nat * nat * Z := (b_id b, b_size b, b_first b, b_dist b).
Lemma geom_eq b b' : geom b = geom b' -> b_id b = b_id b' /\ b_size b = b_size b' /\ b_first b = b_first b' /\ b_dist b = b_dist b'.
Proof. unfold geom. intros H. injection H. auto. Qed.

(** facts that depend on the geometry only *)
Record geo (n : nat) (l : list block) : Prop := {
  g_ids : NoDup (map b_id l);
  g_in : forall b, In b l -> (1 <= b_size b)%nat /\ (b_first b + b_size b <= region n)%nat;
  g_disj : forall b b', In b l -> In b' l -> b_id b <> b_id b' -> disjoint b b';
  g_sorted : forall i j, (i < j < length l)%nat -> b_dist (nth j l no_block) <= b_dist (nth i l no_block);
  g_dist : sym c = true -> forall b, In b l -> b_dist b = Z.of_nat n - 2 * Z.of_nat (b_first b) }.

Lemma same_geom (F : block -> block) l : (forall b, geom (F b) = geom b) -> forall n, geo n l -> geo n (map F l).
Proof.
  intros H n [G1 G2 G3 G4 G5].
  assert (P : forall b, b_id (F b) = b_id b /\ b_size (F b) = b_size b /\ b_first (F b) = b_first b /\ b_dist (F b) = b_dist b) by (intros b; apply geom_eq, H).
  constructor.
  - rewrite map_map. rewrite (map_ext _ b_id) by (intros b; apply P). exact G1.
  - intros b Hb. apply in_map_iff in Hb. destruct Hb as (b0 & <- & Hb). destruct (P b0) as (_ & -> & -> & _). apply G2, Hb.
  - intros b b' Hb Hb' N. apply in_map_iff in Hb. destruct Hb as (b0 & <- & Hb). apply in_map_iff in Hb'. destruct Hb' as (b0' & <- & Hb').
    unfold disjoint. destruct (P b0) as (E1 & -> & -> & _). destruct (P b0') as (E1' & -> & -> & _). apply G3; congruence.
  - rewrite map_length. intros i j Hij. rewrite !(nth_indep (map F l) no_block (F no_block)) by (rewrite map_length; lia). rewrite !map_nth.
    destruct (P (nth j l no_block)) as (_ & _ & _ & ->). destruct (P (nth i l no_block)) as (_ & _ & _ & ->). apply G4, Hij.
  - intros Y b Hb. apply in_map_iff in Hb. destruct Hb as (b0 & <- & Hb). destruct (P b0) as (_ & _ & -> & ->). apply G5; assumption.
Qed.

Definition swap_angles (id1 id2 : nat) (a1 a2 : Z) (b : block) : block :=
  if Nat.eqb (b_id b) id1 then set_angle b a2 else if Nat.eqb (b_id b) id2 then set_angle b a1 else b.
Lemma id_inj l i j : NoDup (map b_id l) -> (i < length l)%nat -> (j < length l)%nat -> b_id (nth i l no_block) = b_id (nth j l no_block) -> i = j.
Proof.
  intros N Hi Hj E. rewrite NoDup_nth in N. apply (N i j); [rewrite map_length; exact Hi|rewrite map_length; exact Hj|].
  rewrite (map_nth b_id l no_block i : nth i (map b_id l) 0%nat = _), (map_nth b_id l no_block j : nth j (map b_id l) 0%nat = _). exact E.
Qed.
Lemma id_inj_in l b b' : NoDup (map b_id l) -> In b l -> In b' l -> b_id b = b_id b' -> b = b'.
Proof.
  intros N Hb Hb' E. apply (In_nth _ _ no_block) in Hb. destruct Hb as (i & Hi & <-). apply (In_nth _ _ no_block) in Hb'. destruct Hb' as (j & Hj & <-).
  rewrite (id_inj l i j N Hi Hj E). reflexivity.
Qed.
Lemma upd_swap l i1 i2 : NoDup (map b_id l) -> (i1 < length l)%nat -> (i2 < length l)%nat -> i1 <> i2 ->
  let b1 := nth i1 l no_block in let b2 := nth i2 l no_block in
  upd i2 (set_angle b2 (b_angle b1)) (upd i1 (set_angle b1 (b_angle b2)) l) = map (swap_angles (b_id b1) (b_id b2) (b_angle b1) (b_angle b2)) l.
Proof.
  intros N H1 H2 D b1 b2. apply (list_ext _ _ no_block); [rewrite !upd_length, map_length; reflexivity|]. rewrite !upd_length. intros j Hj.
  rewrite (nth_indep (map _ l) no_block (swap_angles (b_id b1) (b_id b2) (b_angle b1) (b_angle b2) no_block)) by (rewrite map_length; exact Hj). rewrite map_nth.
  unfold swap_angles. rewrite !nth_upd, upd_length, (proj2 (Nat.ltb_lt _ _) H1), (proj2 (Nat.ltb_lt _ _) H2), !andb_true_r.
  destruct (Nat.eqb_spec i2 j) as [E2|N2].
  - subst j. fold b2. destruct (Nat.eqb_spec (b_id b2) (b_id b1)) as [E|_]; [exfalso; apply D; symmetry; apply (id_inj l _ _ N H2 H1 E)|].
    rewrite Nat.eqb_refl. reflexivity.
  - destruct (Nat.eqb_spec i1 j) as [E1|N1].
    + subst j. fold b1. rewrite Nat.eqb_refl. reflexivity.
    + destruct (Nat.eqb_spec (b_id (nth j l no_block)) (b_id b1)) as [E|_]; [exfalso; apply N1; symmetry; apply (id_inj l _ _ N Hj H1 E)|].
      destruct (Nat.eqb_spec (b_id (nth j l no_block)) (b_id b2)) as [E|_]; [exfalso; apply N2; symmetry; apply (id_inj l _ _ N Hj H2 E)|]. reflexivity.
Qed.

Definition upn (midply : option Z) (id : nat) (l : list block) (b : block) : block :=
  if Nat.eqb (b_id b) id then
    set_near b (angles_around l id ++ (if Nat.eqb id 0 then match midply with Some m => [m] | None => [] end else []))
  else if next_to (b_id b) id then set_near b (angles_around l (b_id b))
  else b.
Lemma update_near_map midply id l : update_near midply id l = map (upn midply id l) l.
Proof. reflexivity. Qed.
Lemma upn_geom midply id l b : geom (upn midply id l b) = geom b.
Proof. unfold upn. destruct (Nat.eqb _ _); [reflexivity|]. destruct (next_to _ _); reflexivity. Qed.
Lemma upn_angle midply id l b : b_angle (upn midply id l b) = b_angle b.
Proof. unfold upn. destruct (Nat.eqb _ _); [reflexivity|]. destruct (next_to _ _); reflexivity. Qed.
Lemma upn_id midply id l b : b_id (upn midply id l b) = b_id b.
Proof. apply (geom_eq _ _ (upn_geom midply id l b)). Qed.
Lemma next_to_sym a b : next_to a b = next_to b a.
Proof. unfold next_to. destruct (Nat.eqb_spec a (b + 1)), (Nat.eqb_spec (a + 1) b), (Nat.eqb_spec b (a + 1)), (Nat.eqb_spec (b + 1) a); try reflexivity; lia. Qed.
Lemma next_to_neq a b : next_to a b = true -> a <> b.
Proof. unfold next_to. destruct (Nat.eqb_spec a (b + 1)), (Nat.eqb_spec (a + 1) b); cbn; (discriminate || lia). Qed.

(** the neighbour angles of the blocks outside [st] are up to date *)
Definition near_except (st : nat -> Prop) (l : list block) : Prop :=
  forall b b', In b l -> In b' l -> next_to (b_id b) (b_id b') = true -> st (b_id b) \/ In (b_angle b') (b_near b).
Lemma around_in l b' id : In b' l -> next_to (b_id b') id = true -> In (b_angle b') (angles_around l id).
Proof. intros H N. unfold angles_around. apply in_map. apply filter_In. split; assumption. Qed.
Lemma upn_near midply id l (st : nat -> Prop) : near_except st l ->
  near_except (fun k => st k /\ k <> id /\ next_to k id = false) (map (upn midply id l) l).
Proof.
  intros H b b' Hb Hb' N. apply in_map_iff in Hb. destruct Hb as (b0 & <- & Hb). apply in_map_iff in Hb'. destruct Hb' as (b0' & <- & Hb').
  rewrite !upn_id in *. rewrite upn_angle. unfold upn. destruct (Nat.eqb_spec (b_id b0) id) as [E|E].
  - right. cbn [set_near b_near]. apply in_or_app. left. apply around_in; [exact Hb'|]. rewrite next_to_sym, <- E. exact N.
  - destruct (next_to (b_id b0) id) eqn:T.
    + right. cbn [set_near b_near]. apply around_in; [exact Hb'|]. rewrite next_to_sym. exact N.
    + destruct (H b0 b0' Hb Hb' N) as [S|S]; [left; auto|right; exact S].
Qed.

(** the list of blocks after an exchange *)
Definition swapped (midply : option Z) (i1 i2 : nat) (l : list block) : list block :=
  let b1 := nth i1 l no_block in let b2 := nth i2 l no_block in
  update_near midply (b_id b2) (update_near midply (b_id b1) (upd i2 (set_angle b2 (b_angle b1)) (upd i1 (set_angle b1 (b_angle b2)) l))).
Lemma swapped_map midply i1 i2 l : NoDup (map b_id l) -> (i1 < length l)%nat -> (i2 < length l)%nat -> i1 <> i2 ->
  exists F, swapped midply i1 i2 l = map F l /\ (forall b, geom (F b) = geom b) /\
   forall b, b_angle (F b) = if Nat.eqb (b_id b) (b_id (nth i1 l no_block)) then b_angle (nth i2 l no_block)
     else if Nat.eqb (b_id b) (b_id (nth i2 l no_block)) then b_angle (nth i1 l no_block) else b_angle b.
Proof.
  intros N H1 H2 D. unfold swapped. rewrite (upd_swap l i1 i2 N H1 H2 D). rewrite !update_near_map, !map_map. eexists. split; [reflexivity|]. split.
  - intros b. rewrite !upn_geom. unfold swap_angles. destruct (Nat.eqb _ _); [reflexivity|]. destruct (Nat.eqb _ _); reflexivity.
  - intros b. rewrite !upn_angle. unfold swap_angles. destruct (Nat.eqb _ _); [reflexivity|]. destruct (Nat.eqb _ _); reflexivity.
Qed.

Definition apart (l : list block) : Prop := forall b b', In b l -> In b' l -> next_to (b_id b) (b_id b') = true -> b_angle b <> b_angle b'.
Definition compat (l : list block) : Prop := forall b b', In b l -> In b' l -> next_to (b_id b) (b_id b') = true -> is_diso (b_angle b) (b_angle b') (delta_angle c) = true.

Lemma possible_near b a x : possible c b a = true -> In x (b_near b) -> a <> x /\ (diso c = true -> is_diso a x (delta_angle c) = true).
Proof.
  intros H Hx. unfold possible in H. apply andb_prop in H. destruct H as [H H4]. apply andb_prop in H. destruct H as [H H3]. split.
  - intros ->. apply negb_true_iff in H3. apply memb_false in H3. contradiction.
  - intros Di. rewrite Di in H4. cbn [negb orb] in H4. destruct (b_near b) as [|y [|z [|w r]]]; try discriminate; cbn in Hx.
    + destruct Hx as [<-|[]]. exact H4.
    + apply andb_prop in H4. destruct H4 as [A B]. destruct Hx as [<-|[<-|[]]]; assumption.
Qed.

Lemma swapped_ok midply i1 i2 l : NoDup (map b_id l) -> (i1 < length l)%nat -> (i2 < length l)%nat -> i1 <> i2 ->
  let b1 := nth i1 l no_block in let b2 := nth i2 l no_block in
  possible c b1 (b_angle b2) = true -> possible c b2 (b_angle b1) = true -> near_except (fun _ => False) l -> apart l ->
  near_except (fun _ => False) (swapped midply i1 i2 l) /\ apart (swapped midply i1 i2 l) /\ (diso c = true -> compat l -> compat (swapped midply i1 i2 l)).
Proof.
  intros N H1 H2 D b1 b2 P1 P2 Nr Ap.
  assert (I1 : In b1 l) by (apply nth_In; exact H1). assert (I2 : In b2 l) by (apply nth_In; exact H2).
  assert (Nid : b_id b1 <> b_id b2) by (intros E; apply D, (id_inj l _ _ N H1 H2 E)).
  assert (Nadj : next_to (b_id b1) (b_id b2) = false).
  { destruct (next_to (b_id b1) (b_id b2)) eqn:T; [|reflexivity]. exfalso. destruct (Nr b1 b2 I1 I2 T) as [[]|X]. apply (possible_near _ _ _ P1 X). reflexivity. }
  split.
  - unfold swapped. rewrite (upd_swap l i1 i2 N H1 H2 D). fold b1 b2. rewrite !update_near_map.
    set (l1 := map (swap_angles _ _ _ _) l).
    assert (S0 : near_except (fun k => next_to k (b_id b1) = true \/ next_to k (b_id b2) = true) l1).
    { intros b b' Hb Hb' T. apply in_map_iff in Hb. destruct Hb as (b0 & <- & Hb). apply in_map_iff in Hb'. destruct Hb' as (b0' & <- & Hb').
      assert (G : forall x, b_id (swap_angles (b_id b1) (b_id b2) (b_angle b1) (b_angle b2) x) = b_id x) by (intros x; unfold swap_angles; destruct (Nat.eqb _ _); [reflexivity|destruct (Nat.eqb _ _); reflexivity]).
      assert (Nn : forall x, b_near (swap_angles (b_id b1) (b_id b2) (b_angle b1) (b_angle b2) x) = b_near x) by (intros x; unfold swap_angles; destruct (Nat.eqb _ _); [reflexivity|destruct (Nat.eqb _ _); reflexivity]).
      rewrite !G in *. rewrite Nn. unfold swap_angles.
      destruct (Nat.eqb_spec (b_id b0') (b_id b1)) as [E|_]; [left; left; rewrite <- E; exact T|].
      destruct (Nat.eqb_spec (b_id b0') (b_id b2)) as [E|_]; [left; right; rewrite <- E; exact T|].
      destruct (Nr b0 b0' Hb Hb' T) as [[]|X]. right. exact X. }
    pose proof (upn_near midply (b_id b1) l1 _ S0) as S1. pose proof (upn_near midply (b_id b2) _ _ S1) as S2.
    intros b b' Hb Hb' T. destruct (S2 b b' Hb Hb' T) as [(( [X|X] & Y1 & Y2) & Y3 & Y4)|X]; [congruence|congruence|right; exact X].
  - destruct (swapped_map midply i1 i2 l N H1 H2 D) as (F & -> & Ge & An). fold b1 b2 in An.
    assert (Gi : forall b, b_id (F b) = b_id b) by (intros b; apply (geom_eq _ _ (Ge b))).
    assert (Main : forall b b', In b l -> In b' l -> next_to (b_id b) (b_id b') = true ->
       b_angle (F b) <> b_angle (F b') /\ (diso c = true -> compat l -> is_diso (b_angle (F b)) (b_angle (F b')) (delta_angle c) = true)).
    { intros b b' Hb Hb' T. rewrite !An. pose proof (next_to_neq _ _ T) as Nb. pose proof (next_to_sym (b_id b') (b_id b)) as Sy. rewrite T in Sy.
      destruct (Nat.eqb_spec (b_id b) (b_id b1)) as [E|E].
      - assert (b = b1) by (apply (id_inj_in l b b1 N Hb I1 E)). subst b. destruct (Nat.eqb_spec (b_id b') (b_id b1)) as [E'|_]; [congruence|].
        destruct (Nat.eqb_spec (b_id b') (b_id b2)) as [E'|_]; [rewrite E' in T; congruence|].
        destruct (Nr b1 b' Hb Hb' T) as [[]|X]. destruct (possible_near _ _ _ P1 X) as [A B]. split; [exact A|]. intros Di _. apply B, Di.
      - destruct (Nat.eqb_spec (b_id b) (b_id b2)) as [E2|E2].
        + assert (b = b2) by (apply (id_inj_in l b b2 N Hb I2 E2)). subst b. destruct (Nat.eqb_spec (b_id b') (b_id b1)) as [E'|_]; [rewrite E' in Sy; congruence|].
          destruct (Nat.eqb_spec (b_id b') (b_id b2)) as [E'|_]; [congruence|].
          destruct (Nr b2 b' Hb Hb' T) as [[]|X]. destruct (possible_near _ _ _ P2 X) as [A B]. split; [exact A|]. intros Di _. apply B, Di.
        + destruct (Nat.eqb_spec (b_id b') (b_id b1)) as [E'|_].
          * assert (b' = b1) by (apply (id_inj_in l b' b1 N Hb' I1 E')). subst b'. destruct (Nr b1 b Hb' Hb Sy) as [[]|X]. destruct (possible_near _ _ _ P1 X) as [A B].
            split; [congruence|]. intros Di _. rewrite is_diso_comm. apply B, Di.
          * destruct (Nat.eqb_spec (b_id b') (b_id b2)) as [E''|_].
            -- assert (b' = b2) by (apply (id_inj_in l b' b2 N Hb' I2 E'')). subst b'. destruct (Nr b2 b Hb' Hb Sy) as [[]|X]. destruct (possible_near _ _ _ P2 X) as [A B].
               split; [congruence|]. intros Di _. rewrite is_diso_comm. apply B, Di.
            -- split; [apply Ap; assumption|]. intros _ C. apply C; assumption. }
    split.
    + intros b b' Hb Hb' T. apply in_map_iff in Hb. destruct Hb as (b0 & <- & Hb). apply in_map_iff in Hb'. destruct Hb' as (b0' & <- & Hb'). rewrite !Gi in T. apply (Main b0 b0' Hb Hb' T).
    + intros Di C b b' Hb Hb' T. apply in_map_iff in Hb. destruct Hb as (b0 & <- & Hb). apply in_map_iff in Hb'. destruct Hb' as (b0' & <- & Hb'). rewrite !Gi in T. apply (Main b0 b0' Hb Hb' T); assumption.
Qed.
End Swap.

(* ---------------- reading the blocks ---------------- *)
Section Read.
Variable ss : list Z.
Variable od : bool.
Definition run (first size : nat) (a : Z) : Prop := forall k, (first <= k < first + size)%nat -> nth k ss 0 = a.

Record blocks_ok (id e : nat) (R : list block) : Prop := {
  r_head : exists b0 rest, R = b0 :: rest /\ b_id b0 = id /\ (b_first b0 + b_size b0 = e)%nat /\ forall b, In b rest -> (b_first b + b_size b <= b_first b0)%nat /\ (id < b_id b)%nat;
  r_size : forall b, In b R -> (1 <= b_size b)%nat /\ (b_first b + b_size b <= e)%nat /\ (id <= b_id b)%nat;
  r_ids : NoDup (map b_id R);
  r_disj : forall b b', In b R -> In b' R -> b_id b <> b_id b' -> disjoint b b';
  r_run : forall b, In b R -> run (b_first b) (b_size b) (b_angle b);
  r_cover : forall k, (k < e)%nat -> exists b, In b R /\ inb b k = true;
  r_max : forall b, In b R -> (0 < b_first b)%nat -> nth (b_first b - 1) ss 0 <> b_angle b;
  r_next : forall b b', In b R -> In b' R -> (b_id b = b_id b' + 1 <-> b_first b + b_size b = b_first b')%nat;
  r_before : forall b, In b R -> (0 < b_first b)%nat -> In (nth (b_first b - 1) ss 0) (b_near b);
  r_after : forall b, In b R -> (1 <= b_id b)%nat -> In (nth (b_first b + b_size b) ss 0) (b_near b);
  r_dist : forall b, In b R -> b_dist b = block_dist (length ss) (b_first b) (b_size b) }.

Lemma near_of_before x o : In x (near_of (Some x) o).
Proof. destruct o as [y|]; cbn [near_of]; [|now left]. destruct (Z.eqb_spec y x); now left. Qed.
Lemma near_of_after x o : In x (near_of o (Some x)).
Proof. destruct o as [y|]; cbn [near_of]; [|now left]. destruct (Z.eqb_spec x y); [subst; now left|right; now left]. Qed.

Lemma read_ok : forall start id size, (1 <= size)%nat -> run start size (nth start ss 0) -> blocks_ok id (start + size) (read_blocks ss od id size start).
Proof.
  induction start as [|p IH]; intros id size Sz Rn; cbn [read_blocks].
  - set (b0 := new_block _ _ _ _ _ _ _).
    assert (Hin : forall b, In b [b0] -> b = b0) by (intros b [<-|[]]; reflexivity).
    constructor.
    + exists b0, []. split; [reflexivity|]. split; [reflexivity|]. split; [reflexivity|]. intros b [].
    + intros b Hb. rewrite (Hin b Hb). cbn. lia.
    + repeat constructor. intros [].
    + intros b b' Hb Hb' N. rewrite (Hin b Hb), (Hin b' Hb') in N. congruence.
    + intros b Hb. rewrite (Hin b Hb). exact Rn.
    + intros k Hk. exists b0. split; [now left|]. apply inb_spec. cbn. lia.
    + intros b Hb Hf. rewrite (Hin b Hb) in Hf. cbn in Hf. lia.
    + intros b b' Hb Hb'. rewrite (Hin b Hb), (Hin b' Hb'). cbn. lia.
    + intros b Hb Hf. rewrite (Hin b Hb) in Hf. cbn in Hf. lia.
    + intros b Hb Hi. rewrite (Hin b Hb) in *. cbn in Hi. cbn [b0 new_block b_near b_first b_size]. unfold one_sided. destruct (Nat.eqb_spec id 0); [lia|]. cbn [andb]. apply near_of_after.
    + intros b Hb. rewrite (Hin b Hb). reflexivity.
  - destruct (Z.eqb_spec (nth (S p) ss 0) (nth p ss 0)) as [E|E].
    + replace (S p + size)%nat with (p + S size)%nat by lia. apply IH; [lia|]. intros k Hk. destruct (Nat.eq_dec k p) as [->|N]; [reflexivity|]. rewrite <- E. apply Rn. lia.
    + assert (R1 : run p 1 (nth p ss 0)) by (intros k Hk; f_equal; lia).
      specialize (IH (S id) 1%nat ltac:(lia) R1). set (R := read_blocks ss od (S id) 1 p) in *. set (b0 := new_block _ _ _ _ _ _ _).
      destruct IH as [(h & rest & ER & Hh1 & Hh2 & Hh3) Z1 Z2 Z3 Z4 Z5 Z6 Z7 Z8 Z9 Z10]. constructor.
      * exists b0, R. split; [reflexivity|]. split; [reflexivity|]. split; [reflexivity|]. intros b Hb. destruct (Z1 b Hb) as (A & B & C). cbn. lia.
      * intros b [<-|Hb]; [cbn; lia|]. destruct (Z1 b Hb). lia.
      * cbn [map]. constructor; [|exact Z2]. intros I. apply in_map_iff in I. destruct I as (b & Eb & Hb). destruct (Z1 b Hb) as (_ & _ & C). cbn in Eb. lia.
      * intros b b' [<-|Hb] [<-|Hb'] N; [congruence| | |].
        -- right. destruct (Z1 b' Hb'). cbn. lia.
        -- left. destruct (Z1 b Hb). cbn. lia.
        -- apply Z3; assumption.
      * intros b [<-|Hb]; [exact Rn|apply Z4, Hb].
      * intros k Hk. destruct (le_lt_dec (S p) k) as [L|L].
        -- exists b0. split; [now left|]. apply inb_spec. cbn. lia.
        -- destruct (Z5 k ltac:(lia)) as (b & Hb & I). exists b. split; [now right|exact I].
      * intros b [<-|Hb] Hf; [|apply Z6; assumption]. cbn [b0 new_block b_first b_angle]. replace (S p - 1)%nat with p by lia. congruence.
      * intros b b' [<-|Hb] [<-|Hb'].
        -- cbn. lia.
        -- destruct (Z1 b' Hb') as (A & B & C). cbn [b0 new_block b_first b_id b_size]. split; intros X; lia.
        -- destruct (Z1 b Hb) as (A & B & C). cbn [b0 new_block b_first b_id b_size]. split.
           ++ intros X. assert (Eh : b = h). { apply (id_inj_in R b h Z2 Hb); [rewrite ER; now left|]. lia. } subst b. lia.
           ++ intros X. rewrite ER in Hb. destruct Hb as [<-|Hb]; [lia|]. destruct (Hh3 b Hb) as [Y _].
              assert (Hr : In h R) by (rewrite ER; now left). destruct (Z1 h Hr). lia.
        -- apply Z7; assumption.
      * intros b [<-|Hb] Hf; [|apply Z8; assumption]. cbn [b0 new_block b_first b_near]. replace (S p - 1)%nat with p by lia. apply near_of_before.
      * intros b [<-|Hb] Hi; [|apply Z9; assumption]. cbn in Hi. cbn [b0 new_block b_near b_first b_size]. unfold one_sided. destruct (Nat.eqb_spec id 0); [lia|]. cbn [andb]. apply near_of_after.
      * intros b [<-|Hb]; [reflexivity|apply Z10, Hb].
Qed.
End Read.

(* ---------------- sorting ---------------- *)
Lemma insert_perm b l : Permutation (insert_block b l) (b :: l).
Proof. induction l as [|x l IH]; cbn [insert_block]; [reflexivity|]. destruct (b_dist x <? b_dist b); [reflexivity|]. rewrite IH. apply perm_swap. Qed.
Lemma sort_perm_acc l : forall acc, Permutation (fold_left (fun acc b => insert_block b acc) l acc) (l ++ acc).
Proof.
  induction l as [|x l IH]; intros acc; cbn [fold_left app]; [reflexivity|]. rewrite IH. rewrite insert_perm. apply Permutation_sym, Permutation_middle.
Qed.
Lemma sort_perm l : Permutation (sort_blocks l) l.
Proof. unfold sort_blocks. rewrite sort_perm_acc. rewrite app_nil_r. reflexivity. Qed.
Definition desc (x y : block) : Prop := b_dist y <= b_dist x.
Lemma insert_sorted b l : Sorted desc l -> Sorted desc (insert_block b l).
Proof.
  induction l as [|x l IH]; intros H; cbn [insert_block]; [repeat constructor|]. destruct (Z.ltb_spec (b_dist x) (b_dist b)).
  - constructor; [exact H|]. constructor. unfold desc. lia.
  - inversion H as [|y l' Hs Hd]; subst. constructor; [apply IH, Hs|]. destruct l as [|y l]; cbn [insert_block]; [constructor; unfold desc; lia|].
    destruct (b_dist y <? b_dist b); constructor; [unfold desc; lia|]. inversion Hd; assumption.
Qed.
Lemma sort_sorted_acc l : forall acc, Sorted desc acc -> Sorted desc (fold_left (fun acc b => insert_block b acc) l acc).
Proof. induction l as [|x l IH]; intros acc H; cbn [fold_left]; [exact H|]. apply IH, insert_sorted, H. Qed.
Lemma sort_sorted l : Sorted desc (sort_blocks l).
Proof. apply sort_sorted_acc. constructor. Qed.
Lemma sorted_nth_desc l : Sorted desc l -> forall i j, (i < j < length l)%nat -> b_dist (nth j l no_block) <= b_dist (nth i l no_block).
Proof.
  intros H. apply Sorted_StronglySorted in H; [|intros x y z; unfold desc; lia]. induction H as [|x l Hs IH Hf]; intros i j [Hij Hj]; cbn in Hj; [lia|].
  destruct j as [|j]; [lia|]. cbn [nth]. destruct i as [|i]; [|apply IH; lia]. rewrite Forall_forall in Hf. apply Hf, nth_In. lia.
Qed.

Section Start.
Variable c : cons.
Variable ss : list Z.
Hypothesis Pal : sym c = true -> ss = rev ss.
Notation np := (length ss).
Definition odd_sym : bool := (sym c && Nat.odd np)%bool.

Lemma last_other_lt mid k p : last_other ss mid k = Ok p -> (p < k)%nat /\ nth p ss 0 <> mid.
Proof.
  induction k as [|k IH]; cbn [last_other]; [discriminate|]. destruct (Z.eqb_spec (nth k ss 0) mid); intros H; [destruct (IH H); split; [lia|assumption]|]. injection H as <-. split; [lia|assumption].
Qed.
Lemma block_start_ok p : block_start c ss = Ok p -> (p + 1 <= region c np)%nat /\ (odd_sym = false -> (p + 1 = region c np)%nat).
Proof.
  unfold block_start, region, odd_sym. pose proof (half_facts np) as F. destruct (sym c); cbn [andb].
  - destruct (Nat.odd np) eqn:O.
    + intros H. apply last_other_lt in H. split; [lia|discriminate].
    + destruct (Nat.eqb_spec np 0) as [Z|Z]; [discriminate|]. intros H. assert (E : p = (np / 2 - 1)%nat) by congruence.
      assert (M : (np mod 2 = 0)%nat) by (destruct F as (_ & F1 & F2); destruct (Nat.eq_dec (np mod 2) 1) as [X|X]; [apply F2 in X; discriminate|lia]).
      destruct F as (F0 & _). split; [lia|intros _; lia].
  - destruct (Nat.eqb_spec np 0) as [Z|Z]; [discriminate|]. intros H. assert (E : p = (np - 1)%nat) by congruence. split; [lia|intros _; lia].
Qed.
Lemma pal_nth k : sym c = true -> (k < np)%nat -> nth (np - 1 - k) ss 0 = nth k ss 0.
Proof. intros Y H. assert (E : nth k (rev ss) 0 = nth (np - S k) ss 0) by (apply rev_nth; exact H). rewrite <- (Pal Y) in E. rewrite E. f_equal. lia. Qed.

Lemma blocks_start l : find_list_blocks c ss = Ok l ->
  geo c np l /\ (forall b, In b l -> filled c b ss) /\
  near_except (fun _ => False) l /\ apart l /\
  (odd_sym = false -> (forall k, (k < region c np)%nat -> exists b, In b l /\ inb b k = true)) /\
  (forall b b', In b l -> In b' l -> (b_first b + b_size b = b_first b')%nat -> next_to (b_id b) (b_id b') = true) /\
  (forall b b', In b l -> In b' l -> next_to (b_id b) (b_id b') = true -> (b_first b + b_size b = b_first b')%nat \/ (b_first b' + b_size b' = b_first b)%nat).
Proof.
  intros H. unfold find_list_blocks in H. destruct (block_start c ss) as [p|] eqn:Bs; [|discriminate]. cbn [bind] in H. injection H as <-. fold odd_sym.
  apply block_start_ok in Bs. destruct Bs as [Le Eq].
  assert (R1 : run ss p 1 (nth p ss 0)) by (intros k Hk; f_equal; lia).
  pose proof (read_ok ss odd_sym p 0 1 ltac:(lia) R1) as B. set (R := read_blocks ss odd_sym 0 1 p) in *.
  assert (In_ : forall b, In b (sort_blocks R) <-> In b R) by (intros b; split; apply Permutation_in; [|symmetry]; apply sort_perm).
  pose proof (region_le c np) as Rl. pose proof (half_facts np) as F.
  destruct B as [_ Z1 Z2 Z3 Z4 Z5 Z6 Z7 Z8 Z9 Z10].
  assert (Adj : forall b b', In b R -> In b' R -> (b_first b + b_size b = b_first b')%nat -> b_angle b <> b_angle b' /\ In (b_angle b') (b_near b) /\ In (b_angle b) (b_near b')).
  { intros b b' Hb Hb' E. destruct (Z1 b Hb) as (S1 & _), (Z1 b' Hb') as (S2 & _).
    assert (A1 : nth (b_first b' - 1) ss 0 = b_angle b) by (apply (Z4 b Hb); lia).
    assert (A2 : nth (b_first b + b_size b) ss 0 = b_angle b') by (apply (Z4 b' Hb'); lia).
    split; [rewrite <- A1; apply (Z6 b' Hb'); lia|]. split.
    - rewrite <- A2. apply (Z9 b Hb). apply Z7 in E; [lia|assumption|assumption].
    - rewrite <- A1. apply (Z8 b' Hb'). lia. }
  assert (Nx : forall b b', In b R -> In b' R -> next_to (b_id b) (b_id b') = true -> (b_first b + b_size b = b_first b')%nat \/ (b_first b' + b_size b' = b_first b)%nat).
  { intros b b' Hb Hb' T. unfold next_to in T. apply orb_prop in T. destruct T as [T|T]; apply Nat.eqb_eq in T; [left|right]; apply Z7; (assumption || lia). }
  split; [|split; [|split; [|split; [|split; [|split]]]]].
  - constructor.
    + eapply Permutation_NoDup; [symmetry; apply Permutation_map, sort_perm|exact Z2].
    + intros b Hb. apply In_ in Hb. destruct (Z1 b Hb). lia.
    + intros b b' Hb Hb'. apply Z3; apply In_; assumption.
    + apply sorted_nth_desc, sort_sorted.
    + intros Y b Hb. apply In_ in Hb. rewrite (Z10 b Hb). destruct (Z1 b Hb) as (S1 & S2 & _). unfold region in Le. rewrite Y in Le. unfold block_dist.
      destruct (Z.ltb_spec (2 * Z.of_nat (b_first b)) (Z.of_nat np)); [|lia]. destruct (Z.ltb_spec (2 * (Z.of_nat (b_first b) + Z.of_nat (b_size b) - 1)) (Z.of_nat np)); lia.
  - intros b Hb k Hk. apply In_ in Hb. destruct (Z1 b Hb) as (S1 & S2 & _). pose proof (Z4 b Hb k Hk) as E. split; [exact E|]. intros Y. rewrite pal_nth; [exact E|exact Y|lia].
  - intros b b' Hb Hb' T. apply In_ in Hb. apply In_ in Hb'. right. destruct (Nx b b' Hb Hb' T) as [X|X]; [apply (Adj b b' Hb Hb' X)|apply (Adj b' b Hb' Hb X)].
  - intros b b' Hb Hb' T. apply In_ in Hb. apply In_ in Hb'. destruct (Nx b b' Hb Hb' T) as [X|X]; [apply (Adj b b' Hb Hb' X)|]. intros E. symmetry in E. revert E. apply (Adj b' b Hb' Hb X).
  - intros O k Hk. destruct (Z5 k) as (b & Hb & I); [rewrite (Eq O); exact Hk|]. exists b. split; [apply In_, Hb|exact I].
  - intros b b' Hb Hb' E. apply In_ in Hb. apply In_ in Hb'. apply Z7 in E; [|assumption|assumption]. unfold next_to. rewrite E, Nat.eqb_refl. reflexivity.
  - intros b b' Hb Hb'. apply Nx; apply In_; assumption.
Qed.
End Start.

(* ---------------- the loop ---------------- *)
Section SwapLoop.
Variable c : cons.
Variable cos_sin : Z -> nat -> Q.
Variables coeffs target : vec.
Variable midply : option Z.

Definition swap_cond (len i1 i2 : nat) (l : list block) : Prop :=
  (i1 < i2 < length l)%nat /\ status_dam_tol c len (b_first (nth i1 l no_block)) = false /\
  b_size (nth i1 l no_block) = b_size (nth i2 l no_block) /\
  possible c (nth i1 l no_block) (b_angle (nth i2 l no_block)) = true /\ possible c (nth i2 l no_block) (b_angle (nth i1 l no_block)) = true.

Lemma possible_swaps_in len i1 l i2 : status_dam_tol c len (b_first (nth i1 l no_block)) = false -> In i2 (possible_swaps c len i1 l) -> swap_cond len i1 i2 l.
Proof.
  intros St H. unfold possible_swaps in H. apply in_map_iff in H. destruct H as (k & E & H). apply filter_In in H. destruct H as [Hk H]. apply in_seq in Hk.
  subst i2. replace (i1 + 1 + k)%nat with (i1 + k + 1)%nat in H by lia.
  apply andb_prop in H. destruct H as [H P2]. apply andb_prop in H. destruct H as [H P1]. apply andb_prop in H. destruct H as [_ H]. apply Nat.eqb_eq in H.
  split; [lia|]. auto.
Qed.

Section LoopInv.
Variable P : list block -> list Z -> Prop.
Hypothesis Pstep : forall l ss i1 i2, P l ss -> swap_cond (length ss) i1 i2 l ->
  P (swapped midply i1 i2 l) (swap_blocks c (nth i1 l no_block) (nth i2 l no_block) ss).
Lemma swap_inv : forall is l lp obj ss r, P l ss -> swap_loop c cos_sin coeffs target midply is l lp obj ss = Ok r -> exists l', P l' r.
Proof.
  induction is as [|i1 is IH]; intros l lp obj ss r H E; cbn [swap_loop] in E.
  { injection E as <-. eauto. }
  destruct (status_dam_tol c (length ss) (b_first (nth i1 l no_block))) eqn:St; [apply (IH _ _ _ _ _ H E)|].
  destruct (possible_swaps c (length ss) i1 l) as [|j0 js0] eqn:Js; [apply (IH _ _ _ _ _ H E)|].
  set (js := j0 :: js0) in *.
  set (news := map _ js) in *. set (objs := map _ news) in *.
  destruct (argmin objs) as [k|] eqn:A; [|discriminate]. cbn [bind] in E. apply argmin_range in A. destruct A as [A _].
  unfold objs, news in A. rewrite !map_length in A.
  destruct (Qltb (nth k objs 0 + em20)%Q obj).
  - assert (C : swap_cond (length ss) i1 (nth k js 0%nat) l). { apply possible_swaps_in; [exact St|]. rewrite Js. apply nth_In. exact A. }
    pose proof (Pstep _ _ _ _ H C) as H'. unfold swapped in H'. destruct (Qltb (nth k objs 0%Q) em10); [injection E as <-; eauto|]. apply (IH _ _ _ _ _ H' E).
  - destruct (Qltb obj em10); [injection E as <-; eauto|]. apply (IH _ _ _ _ _ H E).
Qed.
End LoopInv.

Variable t0 : list Z.
Hypothesis Pal0 : sym c = true -> t0 = rev t0.
Variable l0 : list block.
Hypothesis L0 : find_list_blocks c t0 = Ok l0.
Notation np := (length t0).

Record good_swap (l : list block) (ss : list Z) : Prop := {
  w_geom : map geom l = map geom l0;
  w_geo : geo c np l;
  w_filled : forall b, In b l -> filled c b ss;
  w_perm : Permutation ss t0;
  w_pal : sym c = true -> forall k, (k < region c np)%nat -> nth (np - 1 - k) ss 0 = nth k ss 0;
  w_mid : sym c = true -> forall k, (np / 2 <= k < np - np / 2)%nat -> nth k ss 0 = nth k t0 0;
  w_outer : sym c = true -> forall k, (k < n_fixed c)%nat -> (k < region c np)%nat -> nth k ss 0 = nth k t0 0;
  w_free : forall k, (k < region c np)%nat -> (forall b, In b l -> inb b k = false) -> nth k ss 0 = nth k t0 0;
  w_near : near_except (fun _ => False) l;
  w_apart : apart l;
  w_compat : diso c = true -> compat c l0 -> compat c l }.

Lemma good_swap_0 : good_swap l0 t0.
Proof.
  destruct (blocks_start c t0 Pal0 l0 L0) as (G & Fi & Ne & Ap & _). constructor; auto.
  - intros Y k Hk. pose proof (region_le c np). apply (pal_nth c t0 Pal0 k Y). lia.
Qed.

Lemma good_swap_step l ss i1 i2 : good_swap l ss -> swap_cond (length ss) i1 i2 l ->
  good_swap (swapped midply i1 i2 l) (swap_blocks c (nth i1 l no_block) (nth i2 l no_block) ss).
Proof.
  intros [W1 W2 W3 W4 W5 W6 W7 W8 W9 W10 W11] (Hi & St & Sz & P1 & P2).
  pose proof (Permutation_length W4) as L. rewrite L in St.
  set (b1 := nth i1 l no_block) in *. set (b2 := nth i2 l no_block) in *.
  assert (I1 : In b1 l) by (apply nth_In; lia). assert (I2 : In b2 l) by (apply nth_In; lia).
  pose proof (g_ids _ _ _ W2) as Nd.
  assert (Nid : b_id b1 <> b_id b2) by (intros E; pose proof (id_inj l i1 i2 Nd ltac:(lia) ltac:(lia) E); lia).
  pose proof (g_disj _ _ _ W2 b1 b2 I1 I2 Nid) as Dj.
  pose proof (g_in _ _ _ W2 b1 I1) as [S1 B1]. pose proof (g_in _ _ _ W2 b2 I2) as [S2 B2].
  pose proof (half_facts np) as Hf. pose proof (region_le c np) as Rl.
  destruct (swapped_map midply i1 i2 l Nd ltac:(lia) ltac:(lia) ltac:(lia)) as (F & Em & Ge & An). fold b1 b2 in An.
  assert (Gp : forall b, b_id (F b) = b_id b /\ b_size (F b) = b_size b /\ b_first (F b) = b_first b /\ b_dist (F b) = b_dist b) by (intros b; apply geom_eq, Ge).
  destruct (swapped_ok c midply i1 i2 l Nd ltac:(lia) ltac:(lia) ltac:(lia) P1 P2 W9 W10) as (N1 & N2 & N3).
  assert (B1' : (b_first b1 + b_size b1 <= region c (length ss))%nat) by (rewrite L; exact B1).
  assert (B2' : (b_first b2 + b_size b2 <= region c (length ss))%nat) by (rewrite L; exact B2).
  constructor.
  - rewrite Em, map_map. rewrite (map_ext _ geom) by exact Ge. exact W1.
  - rewrite Em. apply same_geom; assumption.
  - rewrite Em. intros b Hb. apply in_map_iff in Hb. destruct Hb as (b0 & <- & Hb). destruct (Gp b0) as (G1 & G2 & G3 & _).
    pose proof (g_in _ _ _ W2 b0 Hb) as [S0 B0]. intros k Hk. rewrite G2, G3 in Hk. rewrite An.
    assert (Hkr : (k < region c (length ss))%nat) by (rewrite L; lia).
    assert (Ik : inb b0 k = true) by (apply inb_spec; lia).
    assert (X1 : inb b1 k = Nat.eqb (b_id b0) (b_id b1)).
    { destruct (Nat.eqb_spec (b_id b0) (b_id b1)) as [E|E].
      - rewrite <- (id_inj_in l b0 b1 Nd Hb I1 E). exact Ik.
      - pose proof (g_disj _ _ _ W2 b0 b1 Hb I1 E) as D. unfold disjoint in D. apply inb_false. lia. }
    assert (X2 : inb b2 k = Nat.eqb (b_id b0) (b_id b2)).
    { destruct (Nat.eqb_spec (b_id b0) (b_id b2)) as [E|E].
      - rewrite <- (id_inj_in l b0 b2 Nd Hb I2 E). exact Ik.
      - pose proof (g_disj _ _ _ W2 b0 b2 Hb I2 E) as D. unfold disjoint in D. apply inb_false. lia. }
    rewrite (nth_swap_low c) by assumption. split.
    + rewrite X1, X2. destruct (Nat.eqb_spec (b_id b0) (b_id b1)), (Nat.eqb_spec (b_id b0) (b_id b2)); try congruence. apply (W3 b0 Hb). exact Hk.
    + intros Y. rewrite (swap_length c) by assumption. rewrite (nth_swap_high c) by assumption. rewrite X1, X2.
      destruct (Nat.eqb_spec (b_id b0) (b_id b1)), (Nat.eqb_spec (b_id b0) (b_id b2)); try congruence. apply (W3 b0 Hb); assumption.
  - etransitivity; [|exact W4]. apply swap_perm; auto.
  - intros Y k Hk. rewrite <- L in Hk |- *. rewrite (nth_swap_high c), (nth_swap_low c) by assumption. rewrite L in *. rewrite (W5 Y k Hk). reflexivity.
  - intros Y k Hk. rewrite <- L in Hk. rewrite (nth_swap_mid c) by assumption. rewrite L in Hk. apply (W6 Y k Hk).
  - intros Y k Hk Hr. rewrite (nth_swap_low c) by (rewrite ?L; assumption).
    pose proof (g_sorted _ _ _ W2 i1 i2 ltac:(lia)) as Sd. fold b1 b2 in Sd. rewrite (g_dist _ _ _ W2 Y b1 I1), (g_dist _ _ _ W2 Y b2 I2) in Sd.
    unfold status_dam_tol in St. apply orb_false_elim in St. destruct St as [St _]. apply Nat.ltb_ge in St.
    assert (X1 : inb b1 k = false) by (apply inb_false; lia). assert (X2 : inb b2 k = false) by (apply inb_false; lia). rewrite X1, X2. apply (W7 Y k Hk Hr).
  - intros k Hk Hn. rewrite Em in Hn.
    assert (Hn' : forall b, In b l -> inb b k = false).
    { intros b Hb. specialize (Hn (F b) (in_map F l b Hb)). unfold inb in *. destruct (Gp b) as (_ & E2 & E3 & _). rewrite E2, E3 in Hn. exact Hn. }
    rewrite (nth_swap_low c) by (rewrite ?L; assumption). rewrite (Hn' b1 I1), (Hn' b2 I2). apply W8; assumption.
  - exact N1.
  - exact N2.
  - intros Di C0. apply N3; auto.
Qed.

Lemma good_swap_run is lp obj r : swap_loop c cos_sin coeffs target midply is l0 lp obj t0 = Ok r -> exists l, good_swap l r.
Proof. intros H. eapply swap_inv; [|apply good_swap_0|exact H]. intros; apply good_swap_step; assumption. Qed.

(* block boundaries *)
Lemma geom_in l : map geom l = map geom l0 -> forall b, In b l0 -> exists b', In b' l /\ geom b' = geom b.
Proof. intros E b Hb. apply (in_map geom) in Hb. rewrite <- E in Hb. apply in_map_iff in Hb. destruct Hb as (b' & Eb & Hb). eauto. Qed.

Lemma same_block l ss k : good_swap l ss -> odd_sym c t0 = false -> (k + 1 < region c np)%nat ->
  (nth k ss 0 = nth (k + 1) ss 0 <-> exists b, In b l0 /\ inb b k = true /\ inb b (k + 1) = true) /\
  (diso c = true -> compat c l0 -> (0 <= delta_angle c) -> is_diso (nth k ss 0) (nth (k + 1) ss 0) (delta_angle c) = true).
Proof.
  intros W O Hk. destruct (blocks_start c t0 Pal0 l0 L0) as (G & _ & _ & _ & Co & Pos & _).
  destruct (Co O k ltac:(lia)) as (b & Hb & Ib). destruct (Co O (k + 1)%nat ltac:(lia)) as (b' & Hb' & Ib').
  destruct (geom_in l (w_geom _ _ W) b Hb) as (x & Hx & Gx). destruct (geom_in l (w_geom _ _ W) b' Hb') as (x' & Hx' & Gx').
  apply geom_eq in Gx. apply geom_eq in Gx'. destruct Gx as (G1 & G2 & G3 & _), Gx' as (G1' & G2' & G3' & _).
  apply inb_spec in Ib. apply inb_spec in Ib'.
  assert (V : nth k ss 0 = b_angle x) by (apply (w_filled _ _ W x Hx); lia). assert (V' : nth (k + 1) ss 0 = b_angle x') by (apply (w_filled _ _ W x' Hx'); lia).
  rewrite V, V'. destruct (Nat.eq_dec (b_id b) (b_id b')) as [E|E].
  - pose proof (id_inj_in l0 b b' (g_ids _ _ _ G) Hb Hb' E) as <-. assert (x = x') by (apply (id_inj_in l x x' (g_ids _ _ _ (w_geo _ _ W)) Hx Hx'); congruence). subst x'. split.
    + split; [|reflexivity]. intros _. exists b. split; [exact Hb|]. split; apply inb_spec; lia.
    + intros _ _ D. unfold is_diso. rewrite Z.sub_diag. destruct (Z.ltb_spec (delta_angle c) (Z.abs 0)); [cbn in *; lia|reflexivity].
  - pose proof (g_disj _ _ _ G b b' Hb Hb' E) as D. unfold disjoint in D. assert (Ad : (b_first b + b_size b = b_first b')%nat) by lia.
    pose proof (Pos b b' Hb Hb' Ad) as T. rewrite <- G1, <- G1' in T. split.
    + split; [intros X; exfalso; exact (w_apart _ _ W x x' Hx Hx' T X)|]. intros (y & Hy & Y1 & Y2). exfalso. apply inb_spec in Y1. apply inb_spec in Y2.
      destruct (Nat.eq_dec (b_id y) (b_id b)) as [Ey|Ey].
      * pose proof (id_inj_in l0 y b (g_ids _ _ _ G) Hy Hb Ey). subst y. lia.
      * pose proof (g_disj _ _ _ G y b Hy Hb Ey) as Dy. unfold disjoint in Dy. lia.
    + intros Di C0 _. apply (w_compat _ _ W Di C0); assumption.
Qed.
End SwapLoop.
