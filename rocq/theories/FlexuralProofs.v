(* FlexuralProofs.v - lemmas about Flexural.v *)
From Coq Require Import Lqa.
From Verif Require Import Base Uniq Constraints Guidelines SpecGuidelines GuidelinesProofs ConstraintsProofs Divide DivideProofs Moments MomentsProofs
  Search SearchProofs Membrane MembraneProofs Flexural.
Local Open Scope Z_scope.

Lemma argmin_range l k : argmin l = Ok k -> (k < length l)%nat /\ forall j, (j < length l)%nat -> (nth k l 0 <= nth j l 0)%Q.
Proof.
  intros H. assert (N : l <> []) by (intros ->; discriminate). destruct (argmin_ok l N) as (i & E & B & M). rewrite H in E. injection E as <-. auto.
Qed.

(* ---------------- moving one ply ---------------- *)
Lemma slice_length {A} a b (l : list A) : (b <= length l)%nat -> length (slice a b l) = (b - a)%nat.
Proof. intros H. unfold slice. rewrite firstn_length, skipn_length. lia. Qed.
Lemma nth_slice (l : list Z) a b k : (k < b - a)%nat -> nth k (slice a b l) 0 = nth (a + k) l 0.
Proof. intros H. unfold slice. rewrite nth_firstn by exact H. apply nth_skipn. Qed.

Definition directed (up : bool) (i j : nat) : Prop := if up then (i < j)%nat else (j < i)%nat.
(** where the ply at position k comes from *)
Definition source (up : bool) (i j k : nat) : nat :=
  if Nat.eqb k i then j
  else if up then (if (Nat.ltb i k && Nat.leb k j)%bool then k - 1 else k)%nat
  else (if (Nat.leb j k && Nat.ltb k i)%bool then k + 1 else k)%nat.

Lemma move_length up i j ss : directed up i j -> (i < length ss)%nat -> (j < length ss)%nat -> length (move up i j ss) = length ss.
Proof.
  unfold directed, move. destruct up; intros D Hi Hj; rewrite !app_length; cbn [length]; rewrite ?app_length; cbn [length];
    rewrite firstn_length, slice_length, skipn_length by lia; lia.
Qed.

Lemma nth_move up i j ss k : directed up i j -> (i < length ss)%nat -> (j < length ss)%nat -> nth k (move up i j ss) 0 = nth (source up i j k) ss 0.
Proof.
  unfold directed, move, source. intros D Hi Hj. destruct up.
  - destruct (Nat.ltb_spec k i).
    { rewrite app_nth1 by (rewrite firstn_length; lia). rewrite nth_firstn by lia.
      destruct (Nat.eqb_spec k i); [lia|]. destruct (Nat.ltb_spec i k); [lia|]. reflexivity. }
    rewrite app_nth2 by (rewrite firstn_length; lia). rewrite firstn_length, Nat.min_l by lia.
    destruct (Nat.eqb_spec k i) as [->|N]. { rewrite Nat.sub_diag. reflexivity. }
    replace (k - i)%nat with (S (k - i - 1)) by lia. cbn [nth].
    destruct (Nat.ltb_spec i k); [|lia]. cbn [andb]. destruct (Nat.leb_spec k j).
    + rewrite app_nth1 by (rewrite slice_length; lia). rewrite nth_slice by lia. f_equal. lia.
    + rewrite app_nth2 by (rewrite slice_length; lia). rewrite slice_length by lia. rewrite nth_skipn. f_equal. lia.
  - destruct (Nat.ltb_spec k j).
    { rewrite app_nth1 by (rewrite firstn_length; lia). rewrite nth_firstn by lia.
      destruct (Nat.eqb_spec k i); [lia|]. destruct (Nat.leb_spec j k); [lia|]. reflexivity. }
    rewrite app_nth2 by (rewrite firstn_length; lia). rewrite firstn_length, Nat.min_l by lia.
    destruct (Nat.leb_spec j k); [|lia]. cbn [andb].
    destruct (Nat.ltb_spec k i).
    + destruct (Nat.eqb_spec k i); [lia|]. rewrite app_nth1 by (rewrite slice_length; lia). rewrite nth_slice by lia. f_equal. lia.
    + rewrite app_nth2 by (rewrite slice_length; lia). rewrite slice_length by lia.
      destruct (Nat.eqb_spec k i) as [->|N]. { replace (i - j - (i + 1 - (j + 1)))%nat with 0%nat by lia. reflexivity. }
      replace (k - j - (i + 1 - (j + 1)))%nat with (S (k - i - 1)) by lia. cbn [nth]. rewrite nth_skipn. f_equal. lia.
Qed.

Lemma skipn_nth (l : list Z) k : (k < length l)%nat -> skipn k l = nth k l 0 :: skipn (k + 1) l.
Proof. revert k; induction l as [|a l IH]; intros [|k] H; cbn in H; try lia; [reflexivity|]. cbn [skipn nth Nat.add]. apply IH. lia. Qed.
Lemma slice_split {A} a b (l : list A) : (a <= b)%nat -> skipn a l = slice a b l ++ skipn b l.
Proof. intros H. unfold slice. rewrite <- (firstn_skipn (b - a) (skipn a l)) at 1. f_equal. rewrite skipn_skipn. f_equal. lia. Qed.

Lemma move_perm up i j ss : directed up i j -> (i < length ss)%nat -> (j < length ss)%nat -> Permutation (move up i j ss) ss.
Proof.
  unfold directed, move. intros D Hi Hj. destruct up.
  - rewrite <- (firstn_skipn i ss) at 5. apply Permutation_app_head.
    rewrite (slice_split i j ss) by lia. rewrite (skipn_nth ss j) by lia. apply Permutation_middle.
  - rewrite <- (firstn_skipn j ss) at 5. apply Permutation_app_head. rewrite (skipn_nth ss j) by lia.
    rewrite (slice_split (j + 1) (i + 1) ss) by lia. symmetry. apply Permutation_middle.
Qed.

(* ---------------- the order of the plies ---------------- *)
Section Loop.
Variable c : cons.
Variable cos_sin : Z -> nat -> Q.
Variables coeffs target : vec.

Definition up_at (index : nat) : bool := (sym c || Nat.odd index)%bool.
Fixpoint ordered (index : nat) (l : list nat) : Prop :=
  match l with
  | [] => True
  | i :: t => Forall (directed (up_at index) i) t /\ ordered (S index) t
  end.

Lemma ordered_seq index a n : sym c = true -> ordered index (seq a n).
Proof.
  intros Y. revert index a. induction n as [|n IH]; intros index a; cbn; [exact I|]. split; [|apply IH].
  rewrite Forall_forall. intros j Hj. apply in_seq in Hj. unfold up_at. rewrite Y. cbn. lia.
Qed.

Lemma interleave_in {A} (a b : list A) x : In x (interleave a b) -> In x a \/ In x b.
Proof.
  revert b. induction a as [|y a IH]; intros b H; [destruct H|]. cbn in H. destruct H as [<-|H]; [left; now left|].
  destruct b as [|z b]; [destruct H|]. destruct H as [<-|H]; [right; now left|]. destruct (IH b H); [left; now right|right; now right].
Qed.
Lemma ordered_interleave a q : forall p b index, sym c = false -> Nat.odd index = false -> (b + q <= a)%nat -> (p = q \/ p = S q) ->
  ordered index (interleave (rev (seq a p)) (seq b q)).
Proof.
  induction q as [|q IH]; intros p b index Y O B P.
  - destruct P as [->| ->]; cbn; [exact I|]. split; [constructor|exact I].
  - destruct p as [|p]; [lia|]. rewrite seq_S, rev_app_distr. cbn [rev app seq interleave ordered].
    assert (Oi : Nat.odd (S index) = true) by (rewrite Nat.odd_succ, <- Nat.negb_odd, O; reflexivity).
    assert (Hin : forall x, In x (interleave (rev (seq a p)) (seq (S b) q)) -> (S b <= x < a + p)%nat).
    { intros x Hx. apply interleave_in in Hx. destruct Hx as [Hx|Hx]; [rewrite <- in_rev in Hx|]; apply in_seq in Hx; lia. }
    split; [|split].
    + unfold up_at. rewrite Y, O. constructor; [cbn; lia|]. rewrite Forall_forall. intros x Hx. apply Hin in Hx. cbn. lia.
    + unfold up_at. rewrite Y, Oi. rewrite Forall_forall. intros x Hx. apply Hin in Hx. cbn. lia.
    + apply IH; [exact Y| |lia|lia]. rewrite Nat.odd_succ, <- Nat.negb_odd, Oi. reflexivity.
Qed.

Definition hi (n : nat) : nat := if sym c then (n / 2)%nat else (n - n_fixed c)%nat.
Lemma ind_2_ok n : ordered 0 (ind_2 c n) /\ (forall i, In i (ind_2 c n) -> (n_fixed c <= i < hi n)%nat).
Proof.
  unfold ind_2, hi. destruct (sym c) eqn:Y.
  { split; [apply ordered_seq, Y|]. intros i H. apply in_seq in H. lia. }
  set (h := (n / 2)%nat). pose proof (Nat.div_mod n 2 ltac:(lia)) as D. fold h in D. pose proof (Nat.mod_upper_bound n 2 ltac:(lia)) as D2.
  assert (G : forall f, (f <= h)%nat -> skipn (2 * f) (interleave (rev (seq h (n - h))) (seq 0 h)) = interleave (rev (seq h (n - h - f))) (seq f (h - f))).
  { induction f as [|f IH]; intros Hf; [rewrite !Nat.sub_0_r; reflexivity|]. replace (2 * S f)%nat with (2 + 2 * f)%nat by lia.
    replace (2 + 2 * f)%nat with (2 * f + 2)%nat by lia. rewrite Nat.add_comm, <- skipn_skipn. rewrite IH by lia.
    replace (n - h - f)%nat with (S (n - h - S f)) by lia. replace (h - f)%nat with (S (h - S f)) by lia.
    rewrite seq_S, rev_app_distr. reflexivity. }
  destruct (le_lt_dec (n_fixed c) h) as [L|L].
  - rewrite G by exact L. split; [apply ordered_interleave; [exact Y|reflexivity|lia|lia]|].
    intros i Hi. apply interleave_in in Hi. destruct Hi as [Hi|Hi]; [rewrite <- in_rev in Hi|]; apply in_seq in Hi; lia.
  - replace (n_fixed c) with (h + (n_fixed c - h))%nat by lia.
    replace (2 * (h + (n_fixed c - h)))%nat with (2 * (n_fixed c - h) + 2 * h)%nat by lia. rewrite <- skipn_skipn.
    rewrite G by lia. rewrite Nat.sub_diag. cbn [seq]. assert (E : (n - h - h <= 1)%nat) by lia.
    assert (W : (length (interleave (rev (seq h (n - h - h))) (@nil nat)) <= 1)%nat).
    { destruct (n - h - h)%nat as [|[|m]]; [cbn; lia|cbn; lia|lia]. }
    rewrite skipn_all2 by lia. split; [exact I|]. intros i [].
Qed.

(* ---------------- one pass ---------------- *)
Lemma tests_nth checked up i : forall js ss vals, tests c cos_sin coeffs target checked up i js ss = Ok vals -> length vals = length js /\
  forall k j, nth_error js k = Some j -> exists b, allowed c checked up i j ss = Ok b /\
    nth k vals 0%Q = (if b then objD c cos_sin coeffs target (move up i j ss) else e10).
Proof.
  induction js as [|j0 js IH]; intros ss vals H; cbn [tests] in H.
  - injection H as <-. split; [reflexivity|]. intros [|k] j F; discriminate.
  - destruct (allowed c checked up i j0 ss) as [b|] eqn:A; [|discriminate]. cbn [bind] in H.
    destruct (tests _ _ _ _ _ _ _ js ss) as [r|] eqn:T; [|discriminate]. cbn [bind] in H. injection H as <-.
    destruct (IH ss r T) as [L R]. split; [cbn; lia|]. intros [|k] j F; cbn in F.
    + injection F as <-. exists b. split; [exact A|reflexivity].
    + apply R, F.
Qed.

Section Inv.
Variables (checked : bool) (lo hi_ : nat).
Variable P : list Z -> Prop.
Hypothesis Plen : forall ss, P ss -> (hi_ <= length ss)%nat.
Hypothesis Pmove : forall up i j ss, directed up i j -> (lo <= i < hi_)%nat -> (lo <= j < hi_)%nat ->
  (sym c = true -> up = true) -> allowed c checked up i j ss = Ok true -> P ss -> P (move up i j ss).

Lemma shift_inv n_D2 : forall inds index best ss ss', ordered index inds -> (forall i, In i inds -> (lo <= i < hi_)%nat) ->
  (best <= e10)%Q -> (objD c cos_sin coeffs target ss == best)%Q -> P ss ->
  shift_loop c cos_sin coeffs target checked n_D2 index inds best ss = Ok ss' ->
  P ss' /\ (objD c cos_sin coeffs target ss' <= best)%Q.
Proof.
  induction inds as [|i rest IH]; intros index best ss ss' Or Rg Be Ob Ps H; cbn [shift_loop] in H.
  { injection H as <-. split; [exact Ps|]. lra. }
  destruct rest as [|j0 rest']. { injection H as <-. split; [exact Ps|]. lra. }
  set (rest := j0 :: rest') in *. destruct Or as [Fd Or]. fold (up_at index) in H.
  destruct (tests _ _ _ _ _ _ _ _ _) as [vals|] eqn:T; [|discriminate]. cbn [bind] in H.
  apply tests_nth in T. destruct T as [Lv Tn].
  set (tab := vals ++ repeat e10 _) in *. destruct (argmin tab) as [k|] eqn:A; [|discriminate]. cbn [bind] in H.
  destruct (argmin_range _ _ A) as [Ak _].
  destruct (Qltb _ best) eqn:B.
  - apply Qltb_true in B. destruct (nth_error rest k) as [j|] eqn:Nj; [|discriminate].
    assert (Lt : (nth k tab 0 < e10)%Q). { assert (0 < em20)%Q by reflexivity. lra. }
    assert (Kv : (k < length vals)%nat).
    { destruct (lt_dec k (length vals)) as [X|X]; [exact X|]. exfalso.
      assert (E : nth k tab 0%Q = e10).
      { unfold tab. rewrite app_nth2 by lia. apply (repeat_spec (table_size checked n_D2 (length rest) - length vals)). apply nth_In. unfold tab in Ak. rewrite app_length in Ak. lia. }
      rewrite E in Lt. lra. }
    assert (Nf : nth_error (firstn (cand_count checked n_D2) rest) k = Some j).
    { rewrite <- (firstn_skipn (cand_count checked n_D2) rest) in Nj. rewrite nth_error_app1 in Nj by lia. exact Nj. }
    destruct (Tn k j Nf) as (b & Ab & V). assert (Et : nth k tab 0%Q = nth k vals 0%Q) by (unfold tab; apply app_nth1; lia).
    rewrite Et in *. destruct b; [|rewrite V in Lt; lra].
    assert (Ij : In j rest) by (eapply nth_error_In; exact Nj).
    assert (D : directed (up_at index) i j). { rewrite Forall_forall in Fd. apply Fd, Ij. }
    apply IH in H.
    + destruct H as [H1 H2]. split; [exact H1|]. assert (0 < em20)%Q by reflexivity. lra.
    + exact Or.
    + intros x Hx. apply Rg. now right.
    + lra.
    + rewrite V. reflexivity.
    + apply Pmove; [exact D|apply Rg; now left|apply Rg; now right| |exact Ab|exact Ps].
      intros Y. unfold up_at. rewrite Y. reflexivity.
  - apply IH in H; [exact H|exact Or| |exact Be|exact Ob|exact Ps]. intros x Hx. apply Rg. now right.
Qed.
End Inv.
End Loop.

(* ---------------- the tests ---------------- *)
Definition blk (nc : nat) (s : list Z) (k : nat) : Prop := (k + nc < length s)%nat /\ forall d, (d <= nc)%nat -> nth (k + d) s 0 = nth k s 0.
Lemma contig_blk nc s : contig_stack nc s <-> forall k, ~ blk nc s k.
Proof. unfold contig_stack. rewrite has_block_nth. unfold blk. firstorder. Qed.

Lemma half_facts n : (n = 2 * (n / 2) + n mod 2)%nat /\ (n mod 2 < 2)%nat /\ (Nat.odd n = true <-> n mod 2 = 1)%nat.
Proof.
  pose proof (Nat.div_mod n 2 ltac:(lia)). pose proof (Nat.mod_upper_bound n 2 ltac:(lia)). split; [lia|]. split; [lia|].
  rewrite Nat.odd_spec. split; [intros [z E]; lia|intros E; exists (n / 2)%nat; lia].
Qed.

Section Allowed.
Variable c : cons.
Hypothesis Nc : contig c = true -> (2 <= n_contig c <= 6)%nat.

Lemma contig_at_ok s lo hi : contig c = true -> contig_at c s lo hi = Ok true -> forall k, (lo <= k)%nat -> (k + n_contig c <= hi)%nat -> ~ blk (n_contig c) s k.
Proof.
  intros C H k L Hh [B E]. unfold contig_at in H. destruct (is_contig_spec (n_contig c) (slice lo (hi + 1) s) (Nc C)) as (b & Eb & Sb).
  rewrite H in Eb. injection Eb as <-. apply (proj1 Sb eq_refl). apply has_block_nth. exists (k - lo)%nat.
  unfold slice. rewrite firstn_length, skipn_length. split; [lia|]. intros d Hd. rewrite !nth_firstn by lia. rewrite !nth_skipn.
  replace (lo + (k - lo + d))%nat with (k + d)%nat by lia. replace (lo + (k - lo))%nat with k by lia. apply E, Hd.
Qed.

Definition pair_ok (s : list Z) (k : nat) : Prop := is_diso (nth k s 0) (nth (k + 1) s 0) (delta_angle c) = true.
Definition pairs_ok (lo up : nat) (s : list Z) : Prop := forall k, (lo <= k)%nat -> (k + 1 < up)%nat -> pair_ok s k.

Ltac src := unfold source; repeat (match goal with |- context [Nat.eqb ?a ?b] => destruct (Nat.eqb_spec a b) | |- context [Nat.ltb ?a ?b] => destruct (Nat.ltb_spec a b)
   | |- context [Nat.leb ?a ?b] => destruct (Nat.leb_spec a b) end; cbn [andb]; try lia).

Lemma allowed_asym_diso up i j lo ss : directed up i j -> (lo <= i)%nat -> (lo <= j)%nat -> (i < length ss - lo)%nat -> (j < length ss - lo)%nat -> diso c = true ->
  allowed_asym c up i j (move up i j ss) = Ok true -> pairs_ok lo (length ss - lo) ss -> pairs_ok lo (length ss - lo) (move up i j ss).
Proof. clear Nc.
  intros D Li Lj Hi Hj Di A P k K1 K2. unfold allowed_asym in A. rewrite Di in A. cbn [andb] in A.
  rewrite move_length in A by (auto; lia).
  set (l := if up then i else j) in *. set (h := if up then j else i) in *.
  assert (Lh : (l < h)%nat) by (unfold directed in D; unfold l, h; destruct up; lia).
  destruct ((Nat.eqb l 0 || diso_at c (move up i j ss) l (l - 1)) && diso_at c (move up i j ss) l (l + 1) &&
     diso_at c (move up i j ss) h (h - 1) && (Nat.leb (length ss - 1) h || diso_at c (move up i j ss) h (h + 1)))%bool eqn:T; [|cbn in A; discriminate].
  apply andb_prop in T. destruct T as [T T4]. apply andb_prop in T. destruct T as [T T3]. apply andb_prop in T. destruct T as [T1 T2].
  unfold pair_ok. unfold diso_at in *.
  destruct (Nat.eq_dec (k + 1) l) as [E|N1].
  { apply orb_prop in T1. destruct T1 as [T1|T1]; [apply Nat.eqb_eq in T1; lia|]. rewrite is_diso_comm. replace (k + 1)%nat with l by lia. replace k with (l - 1)%nat by lia. exact T1. }
  destruct (Nat.eq_dec k l) as [->|N2]; [exact T2|].
  destruct (Nat.eq_dec (k + 1) h) as [E|N3].
  { rewrite is_diso_comm. replace (k + 1)%nat with h by lia. replace k with (h - 1)%nat by lia. exact T3. }
  destruct (Nat.eq_dec k h) as [->|N4].
  { apply orb_prop in T4. destruct T4 as [T4|T4]; [apply Nat.leb_le in T4; lia|exact T4]. }
  rewrite !nth_move by (auto; lia). unfold directed in D.
  assert (G : exists k', source up i j k = k' /\ source up i j (k + 1) = (k' + 1)%nat /\ (lo <= k')%nat /\ (k' + 1 < length ss - lo)%nat).
  { destruct up; unfold l, h in *; clear l h.
    - destruct (le_lt_dec k i); [exists k|destruct (le_lt_dec k j); [exists (k - 1)%nat|exists k]];
        (split; [src|split; [src|lia]]).
    - destruct (le_lt_dec k j); [exists k|destruct (le_lt_dec k i); [exists (k + 1)%nat|exists k]];
        (split; [src|split; [src|lia]]). }
  destruct G as (k' & E1 & E2 & L1 & L2). rewrite E1, E2. apply P; lia.
Qed.

Lemma allowed_asym_contig up i j ss : directed up i j -> (i < length ss)%nat -> (j < length ss)%nat -> contig c = true ->
  allowed_asym c up i j (move up i j ss) = Ok true -> (forall k, ~ blk (n_contig c) ss k) -> forall k, ~ blk (n_contig c) (move up i j ss) k.
Proof.
  intros D Hi Hj C A P k B. unfold allowed_asym in A. rewrite C in A. set (nc := n_contig c) in *.
  destruct (diso c && _)%bool; [discriminate|].
  destruct (contig_at c _ (i - nc) (i + nc)) as [[|]|] eqn:C1; cbn [bind] in A; try discriminate.
  pose proof (contig_at_ok _ _ _ C C1 k) as W1. pose proof (contig_at_ok _ _ _ C A k) as W2. fold nc in W1, W2.
  unfold directed in D. destruct B as [B1 B2]. pose proof B1 as B1'. rewrite move_length in B1' by (auto; lia).
  assert (G : exists k', forall d, (d <= nc)%nat -> source up i j (k + d) = (k' + d)%nat /\ (k' + d < length ss)%nat).
  { destruct (le_lt_dec k i) as [L1|L1]; [destruct (le_lt_dec i (k + nc)) as [L2|L2];
      [exfalso; apply W1; [lia|lia|split; assumption]|]|];
    (destruct (le_lt_dec k j) as [M1|M1]; [destruct (le_lt_dec j (k + nc)) as [M2|M2];
      [exfalso; apply W2; [lia|lia|split; assumption]|]|]); destruct up; try lia;
    first [exists k; intros d Hd; split; [src; lia|lia] | exists (k - 1)%nat; intros d Hd; split; [src; lia|lia] | exists (k + 1)%nat; intros d Hd; split; [src; lia|lia]]. }
  destruct G as (k' & G). apply (P k'). split; [destruct (G nc ltac:(lia)); lia|].
  intros d Hd. pose proof (B2 d Hd) as E. replace (nth k (move up i j ss) 0) with (nth (k + 0) (move up i j ss) 0) in E by (f_equal; lia). rewrite !nth_move in E by (auto; lia).
  destruct (G d Hd) as [Gd _]. destruct (G 0%nat ltac:(lia)) as [G0 _]. rewrite Gd, G0, Nat.add_0_r in E. exact E.
Qed.

(* symmetric laminates *)
Hypothesis Y : sym c = true.
Lemma mirror_eq s : mirror c s = firstn (length s - length s / 2) s ++ rev (firstn (length s / 2) s).
Proof using Y. clear Nc. unfold mirror. rewrite Y. reflexivity. Qed.
Lemma mirror_length s : length (mirror c s) = length s.
Proof using Y. clear Nc. rewrite mirror_eq. rewrite app_length, rev_length, !firstn_length. pose proof (half_facts (length s)). lia. Qed.
Lemma nth_mirror s k : (k < length s)%nat -> nth k (mirror c s) 0 = nth (if Nat.ltb k (length s - length s / 2) then k else length s - 1 - k)%nat s 0.
Proof using Y. clear Nc.
  intros K. rewrite mirror_eq. pose proof (half_facts (length s)) as F. set (h := (length s / 2)%nat) in *.
  destruct (Nat.ltb_spec k (length s - h)).
  - rewrite app_nth1 by (rewrite firstn_length; lia). apply nth_firstn. lia.
  - rewrite app_nth2 by (rewrite firstn_length; lia). rewrite firstn_length, Nat.min_l by lia.
    rewrite rev_nth by (rewrite firstn_length; lia). rewrite firstn_length, Nat.min_l by lia. rewrite nth_firstn by lia. f_equal. lia.
Qed.
Lemma mirror_pal s k : (k < length s)%nat -> nth (length s - 1 - k) (mirror c s) 0 = nth k (mirror c s) 0.
Proof using Y. clear Nc.
  intros K. rewrite !nth_mirror by lia. pose proof (half_facts (length s)) as F.
  destruct (Nat.ltb_spec k (length s - length s / 2)), (Nat.ltb_spec (length s - 1 - k) (length s - length s / 2)); f_equal; lia.
Qed.

Lemma whole_mirror i j ss : (i < j)%nat -> (j < length ss / 2)%nat ->
  (if Nat.odd (length ss) then firstn (length ss / 2) (move true i j ss) ++ nth (length ss / 2) ss 0 :: rev (firstn (length ss / 2) (move true i j ss))
   else firstn (length ss / 2) (move true i j ss) ++ rev (firstn (length ss / 2) (move true i j ss))) = mirror c (move true i j ss).
Proof using Y. clear Nc.
  intros L1 L2. rewrite mirror_eq. pose proof (half_facts (length ss)) as F. rewrite move_length by (cbn; lia).
  destruct (Nat.odd (length ss)) eqn:O.
  - assert (M : (length ss mod 2 = 1)%nat) by tauto. replace (length ss - length ss / 2)%nat with (length ss / 2 + 1)%nat by lia.
    set (h := (length ss / 2)%nat) in *. set (s := move true i j ss).
    assert (E : firstn (h + 1) s = firstn h s ++ [nth h s 0]).
    { rewrite <- (firstn_skipn h s) at 1. rewrite firstn_app. rewrite firstn_firstn, Nat.min_r by lia.
      assert (length s = length ss) by (apply move_length; cbn; lia). rewrite firstn_length, Nat.min_l by lia. f_equal. replace (h + 1 - h)%nat with 1%nat by lia.
      rewrite (skipn_nth s h) by lia. reflexivity. }
    rewrite E, <- app_assoc. cbn [app]. f_equal. f_equal. unfold s. rewrite nth_move by (cbn; lia). f_equal. src.
  - assert (M : (length ss mod 2 = 0)%nat) by (destruct F as (_ & F1 & F2); destruct (Nat.eq_dec (length ss mod 2) 1) as [X|X]; [apply F2 in X; congruence|lia]).
    replace (length ss - length ss / 2)%nat with (length ss / 2)%nat by lia. reflexivity.
Qed.

Lemma allowed_sym_diso i j lo ss : (lo <= i)%nat -> (i < j)%nat -> (j < length ss / 2)%nat -> diso c = true ->
  allowed_sym c (length ss) i j (firstn (length ss / 2) (move true i j ss)) (nth (length ss / 2) ss 0) = Ok true ->
  pairs_ok lo (length ss - length ss / 2) ss -> pairs_ok lo (length ss - length ss / 2) (move true i j ss).
Proof. clear Nc.
  intros Li D Hj Di A P k K1 K2. unfold allowed_sym in A. rewrite Di in A. cbn [andb] in A.
  pose proof (half_facts (length ss)) as F. set (h := (length ss / 2)%nat) in *. set (s := move true i j ss) in *.
  match type of A with (if negb ?T then _ else _) = _ => destruct T eqn:T0; [|discriminate] end. clear A.
  apply andb_prop in T0. destruct T0 as [T0 T5]. apply andb_prop in T0. destruct T0 as [T0 T4]. apply andb_prop in T0. destruct T0 as [T0 T3]. apply andb_prop in T0. destruct T0 as [T1 T2].
  unfold diso_at in *. unfold pair_ok.
  destruct (Nat.eq_dec (k + 1) i) as [E|N1].
  { apply orb_prop in T1. destruct T1 as [T1|T1]; [apply Nat.eqb_eq in T1; lia|]. rewrite !nth_firstn in T1 by lia. rewrite is_diso_comm. replace (k + 1)%nat with i by lia. replace k with (i - 1)%nat by lia. exact T1. }
  destruct (Nat.eq_dec k i) as [->|N2]; [rewrite !nth_firstn in T2 by lia; exact T2|].
  destruct (Nat.eq_dec k j) as [->|N4].
  { destruct (Nat.eq_dec j (h - 1)) as [Ej|Nj].
    - assert (O : Nat.odd (length ss) = true) by (apply F; lia). rewrite O, Ej, Nat.eqb_refl in T4. cbn [andb negb orb] in T4. rewrite nth_firstn in T4 by lia.
      rewrite Ej. replace (h - 1 + 1)%nat with h by lia. replace (nth h s 0) with (nth h ss 0); [exact T4|]. unfold s. rewrite nth_move by (cbn; lia). f_equal. src.
    - apply orb_prop in T5. destruct T5 as [T5|T5]; [apply Nat.leb_le in T5; lia|]. rewrite !nth_firstn in T5 by lia. exact T5. }
  unfold s. rewrite !nth_move by (cbn; lia).
  assert (G : exists k', source true i j k = k' /\ source true i j (k + 1) = (k' + 1)%nat /\ (lo <= k')%nat /\ (k' + 1 < length ss - h)%nat).
  { destruct (le_lt_dec k i); [exists k|destruct (le_lt_dec k j); [exists (k - 1)%nat|exists k]]; (split; [src|split; [src|lia]]). }
  destruct G as (k' & E1 & E2 & L1 & L2). rewrite E1, E2. apply P; lia.
Qed.

Lemma blk_mirror nc s k : blk nc (mirror c s) k -> blk nc (mirror c s) (length s - 1 - nc - k).
Proof using Y. clear Nc.
  intros [B E]. unfold blk in *. rewrite mirror_length in *. split; [lia|]. intros d Hd.
  replace (length s - 1 - nc - k + d)%nat with (length s - 1 - (k + (nc - d)))%nat by lia.
  replace (length s - 1 - nc - k)%nat with (length s - 1 - (k + nc))%nat by lia.
  rewrite !mirror_pal by lia. rewrite E by lia. rewrite E by lia. reflexivity.
Qed.

Lemma allowed_sym_contig i j ss : (i < j)%nat -> (j < length ss / 2)%nat -> contig c = true ->
  allowed_sym c (length ss) i j (firstn (length ss / 2) (move true i j ss)) (nth (length ss / 2) ss 0) = Ok true ->
  (forall k, ~ blk (n_contig c) (mirror c ss) k) -> forall k, ~ blk (n_contig c) (mirror c (move true i j ss)) k.
Proof.
  intros D Hj C A P. unfold allowed_sym in A. rewrite (whole_mirror i j ss D Hj) in A. rewrite C in A.
  destruct (diso c && _)%bool; [discriminate|].
  pose proof (half_facts (length ss)) as F. set (nc := n_contig c) in *. set (n := length ss) in *.
  assert (Ls : length (move true i j ss) = n) by (apply move_length; cbn; lia).
  set (t := mirror c (move true i j ss)) in *. assert (Lt : length t = n) by (unfold t; rewrite mirror_length; exact Ls).
  assert (Lm : length (mirror c ss) = n) by apply mirror_length.
  (* windows of the upper half *)
  assert (Half : forall k lo hi, contig_at c (firstn (n / 2) (move true i j ss)) lo hi = Ok true -> (hi < n / 2)%nat -> (lo <= k)%nat -> (k + nc <= hi)%nat -> ~ blk nc t k).
  { intros k lo hi H Hh K1 K2 [B E]. apply (contig_at_ok _ _ _ C H k K1 K2). split; [rewrite firstn_length; fold nc; lia|].
    intros d Hd. fold nc in Hd. specialize (E d Hd). unfold t in E. rewrite !nth_mirror in E by lia. rewrite Ls in E.
    destruct (Nat.ltb_spec (k + d) (n - n / 2)); [|lia]. destruct (Nat.ltb_spec k (n - n / 2)); [|lia]. rewrite !nth_firstn by lia. exact E. }
  assert (Same : forall k lo, (lo <= j \/ lo = n)%nat -> (forall d, (d <= nc)%nat -> (k + d < i)%nat \/ (j < k + d < n - 1 - j)%nat) -> ~ blk nc t k).
  { intros k lo _ H [B E]. apply (P k). split; [fold nc; lia|]. intros d Hd. fold nc in Hd. specialize (E d Hd). unfold t in E. rewrite !nth_mirror in E by lia. rewrite Ls in E. fold n in E.
    rewrite !nth_move in E by (cbn; fold n; repeat match goal with |- context [if ?b then _ else _] => destruct b end; lia).
    pose proof (H d Hd) as Hd'. pose proof (H 0%nat ltac:(lia)) as H0. rewrite Nat.add_0_r in H0. rewrite !nth_mirror by (fold n; lia). fold n.
    assert (S1 : forall m, (m < i \/ j < m < n - 1 - j)%nat -> source true i j (if Nat.ltb m (n - n / 2) then m else n - 1 - m)%nat = (if Nat.ltb m (n - n / 2) then m else n - 1 - m)%nat).
    { intros m Hm. destruct (Nat.ltb_spec m (n - n / 2)); src. }
    rewrite !S1 in E by assumption. exact E. }
  assert (Main : forall k, (2 * k + nc <= n - 1)%nat -> ~ blk nc t k).
  { intros k K B. pose proof B as [B1 B2]. rewrite Lt in B1.
    destruct (Nat.leb_spec (n / 2 - 1) (i + nc)) as [L|L].
    - destruct (le_lt_dec (i - nc) k) as [M|M].
      + apply (contig_at_ok _ _ _ C A k); [exact M|fold nc; lia|exact B].
      + apply (Same k n (or_intror eq_refl)) in B; [exact B|]. intros d Hd. left. lia.
    - destruct (contig_at c (firstn (n / 2) (move true i j ss)) (i - nc) (i + nc)) as [[|]|] eqn:C1; cbn [bind] in A; try discriminate.
      destruct (le_lt_dec (k + nc) (i - 1)) as [M1|M1]; [destruct i as [|i']; [|apply (Same k n (or_intror eq_refl)) in B; [exact B|intros d Hd; left; lia]]|].
      + assert (nc = 0)%nat by lia. pose proof (Nc C). fold nc in H0. lia.
      + destruct (le_lt_dec k i) as [M2|M2]; [apply (Half k _ _ C1) in B; [exact B|lia|lia|lia]|].
        destruct (le_lt_dec (k + nc) j) as [M3|M3].
        * apply (P (k - 1)%nat). split; [fold nc; lia|]. intros d Hd. fold nc in Hd. specialize (B2 d Hd). unfold t in B2. rewrite !nth_mirror in B2 by lia. rewrite Ls in B2. fold n in B2.
          destruct (Nat.ltb_spec (k + d) (n - n / 2)); [|lia]. destruct (Nat.ltb_spec k (n - n / 2)); [|lia].
          rewrite !nth_move in B2 by (cbn; fold n; lia).
          assert (S1 : forall m, (i < m <= j)%nat -> source true i j m = (m - 1)%nat) by (intros m Hm; src).
          rewrite !S1 in B2 by lia. rewrite !nth_mirror by (fold n; lia). fold n.
          destruct (Nat.ltb_spec (k - 1 + d) (n - n / 2)); [|lia]. destruct (Nat.ltb_spec (k - 1) (n - n / 2)); [|lia].
          replace (k - 1 + d)%nat with (k + d - 1)%nat by lia. exact B2.
        * destruct (le_lt_dec k j) as [M4|M4].
          -- destruct (Nat.leb_spec (n / 2 - 1) (j + nc)) as [L2|L2].
             ++ apply (contig_at_ok _ _ _ C A k); [fold nc; lia|fold nc; lia|exact B].
             ++ apply (Half k _ _ A) in B; [exact B|lia|lia|lia].
          -- apply (Same k n (or_intror eq_refl)) in B; [exact B|]. intros d Hd. right. lia. }
  intros k B. destruct (le_lt_dec (2 * k + nc) (n - 1)) as [K|K]; [apply (Main k K B)|].
  pose proof B as [B1 _]. rewrite Lt in B1. apply blk_mirror in B. rewrite Ls in B. apply (Main (n - 1 - nc - k)%nat); [lia|exact B].
Qed.
End Allowed.

(* ---------------- the whole pass ---------------- *)
Section Pass.
Variable c : cons.
Variable cos_sin : Z -> nat -> Q.
Variables coeffs target : vec.
Notation obj := (objD c cos_sin coeffs target).

Definition kept (ss0 ss : list Z) : Prop :=
  Permutation ss ss0 /\ forall k, (k < n_fixed c \/ hi c (length ss0) <= k)%nat -> nth k ss 0 = nth k ss0 0.
Lemma hi_le n : (hi c n <= n)%nat.
Proof. unfold hi. pose proof (half_facts n). destruct (sym c); lia. Qed.
Lemma kept_length ss0 ss : kept ss0 ss -> length ss = length ss0.
Proof. intros [P _]. apply Permutation_length, P. Qed.
Lemma kept_move ss0 ss up i j : directed up i j -> (n_fixed c <= i < hi c (length ss0))%nat -> (n_fixed c <= j < hi c (length ss0))%nat ->
  kept ss0 ss -> kept ss0 (move up i j ss).
Proof.
  intros D Hi Hj K. pose proof (kept_length _ _ K) as L. destruct K as [P E]. pose proof (hi_le (length ss0)) as Hh. split.
  - etransitivity; [|exact P]. apply move_perm; [exact D|lia|lia].
  - intros k Hk. rewrite nth_move by (auto; lia). rewrite <- (E k Hk). f_equal. unfold directed in D. unfold source.
    destruct (Nat.eqb_spec k i); [lia|]. destruct up.
    + destruct (Nat.ltb_spec i k), (Nat.leb_spec k j); cbn; lia.
    + destruct (Nat.leb_spec j k), (Nat.ltb_spec k i); cbn; lia.
Qed.

Lemma pass_kept checked n_D2 ss ss' : (obj ss <= e10)%Q -> shift_loop c cos_sin coeffs target checked n_D2 0 (ind_2 c (length ss)) (obj ss) ss = Ok ss' ->
  kept ss ss' /\ (obj ss' <= obj ss)%Q.
Proof.
  intros B H. destruct (ind_2_ok c (length ss)) as [Or Rg].
  apply (shift_inv c cos_sin coeffs target checked (n_fixed c) (hi c (length ss)) (kept ss)) in H; [exact H| |exact Or|exact Rg|exact B|reflexivity|].
  - intros up i j s D Hi Hj _ _ K. apply kept_move; auto.
  - split; [apply Permutation_refl|reflexivity].
Qed.

Lemma pass_diso n_D2 lo ss ss' : diso c = true -> (lo <= n_fixed c)%nat -> (obj ss <= e10)%Q ->
  shift_loop c cos_sin coeffs target true n_D2 0 (ind_2 c (length ss)) (obj ss) ss = Ok ss' ->
  let up := if sym c then (length ss - length ss / 2)%nat else (length ss - lo)%nat in
  pairs_ok c lo up ss -> pairs_ok c lo up ss'.
Proof.
  intros Di Lo B H up P0. destruct (ind_2_ok c (length ss)) as [Or Rg].
  apply (shift_inv c cos_sin coeffs target true (n_fixed c) (hi c (length ss)) (fun s => kept ss s /\ pairs_ok c lo up s)) in H; [apply H| |exact Or|exact Rg|exact B|reflexivity|].
  - intros u i j s D Hi Hj Up A [K P]. split; [apply kept_move; auto|]. pose proof (kept_length _ _ K) as L. pose proof (hi_le (length ss)) as Hh.
    unfold allowed in A. cbn [negb] in A. unfold up, hi in *. destruct (sym c) eqn:Y.
    + specialize (Up eq_refl). subst u. cbn in D. rewrite <- L in P, Hi, Hj |- *. apply allowed_sym_diso; first [assumption|lia].
    + rewrite <- L in P |- *. apply allowed_asym_diso; first [assumption|lia].
  - split; [|exact P0]. split; [apply Permutation_refl|reflexivity].
Qed.

Hypothesis Nc : contig c = true -> (2 <= n_contig c <= 6)%nat.
Lemma pass_contig n_D2 ss ss' : contig c = true -> (obj ss <= e10)%Q ->
  shift_loop c cos_sin coeffs target true n_D2 0 (ind_2 c (length ss)) (obj ss) ss = Ok ss' ->
  (forall k, ~ blk (n_contig c) (mirror c ss) k) -> forall k, ~ blk (n_contig c) (mirror c ss') k.
Proof.
  intros C B H P0. destruct (ind_2_ok c (length ss)) as [Or Rg].
  apply (shift_inv c cos_sin coeffs target true (n_fixed c) (hi c (length ss)) (fun s => kept ss s /\ forall k, ~ blk (n_contig c) (mirror c s) k)) in H; [apply H| |exact Or|exact Rg|exact B|reflexivity|].
  - intros u i j s D Hi Hj Up A [K P]. split; [apply kept_move; auto|]. pose proof (kept_length _ _ K) as L. pose proof (hi_le (length ss)) as Hh.
    unfold allowed in A. cbn [negb] in A. unfold hi in *. destruct (sym c) eqn:Y.
    + specialize (Up eq_refl). subst u. cbn in D. rewrite <- L in Hi, Hj; apply allowed_sym_contig; first [assumption|lia].
    + unfold mirror in *. rewrite Y in *. apply allowed_asym_contig; first [assumption|lia].
  - split; [|exact P0]. split; [apply Permutation_refl|reflexivity].
Qed.

(* the pass ends *)
Lemma contig_at_total s lo h : contig c = true -> exists b, contig_at c s lo h = Ok b.
Proof. intros C. unfold contig_at. destruct (is_contig_spec (n_contig c) (slice lo (h + 1) s) (Nc C)) as (b & E & _). eauto. Qed.
Lemma allowed_total checked up i j ss : exists b, allowed c checked up i j ss = Ok b.
Proof.
  pose proof contig_at_total as CT. unfold allowed, allowed_sym, allowed_asym. destruct checked; [|exists true; reflexivity]. cbn [negb].
  destruct (sym c); (destruct (diso c && _)%bool; [eauto|]); (destruct (contig c) eqn:C; [|eauto]).
  - destruct (Nat.leb _ (i + _)%nat); [apply CT, eq_refl|].
    destruct (CT (firstn (length ss / 2) (move up i j ss)) (i - n_contig c)%nat (i + n_contig c)%nat eq_refl) as [[|] ->]; cbn [bind]; [|eauto].
    destruct (Nat.leb _ _); apply CT, eq_refl.
  - destruct (CT (move up i j ss) (i - n_contig c)%nat (i + n_contig c)%nat eq_refl) as [[|] ->]; cbn [bind]; [apply CT, eq_refl|eauto].
Qed.
Lemma tests_total checked up i ss js : exists v, tests c cos_sin coeffs target checked up i js ss = Ok v.
Proof.
  induction js as [|j js IH]; cbn [tests]; [eauto|]. destruct (allowed_total checked up i j ss) as [b ->]. destruct IH as [v ->]. cbn [bind]. eauto.
Qed.
Lemma shift_total checked n_D2 : (checked = true -> 2 <= n_D2)%nat -> forall inds index best ss, (best <= e10)%Q ->
  exists ss', shift_loop c cos_sin coeffs target checked n_D2 index inds best ss = Ok ss'.
Proof.
  intros N. induction inds as [|i rest IH]; intros index best ss B; cbn [shift_loop]; [eauto|].
  destruct rest as [|j0 rest']; [eauto|]. set (rest := j0 :: rest') in *.
  destruct (tests_total checked (sym c || Nat.odd index)%bool i ss (firstn (cand_count checked n_D2) rest)) as [vals T]. rewrite T. cbn [bind].
  apply tests_nth in T. destruct T as [Lv Tn]. set (tab := vals ++ repeat e10 _).
  assert (Ne : tab <> []).
  { intros E. apply (f_equal (@length Q)) in E. unfold tab in E. rewrite app_length, repeat_length in E. cbn [length] in E. rewrite firstn_length in Lv.
    unfold table_size, cand_count, rest in *. cbn [length] in *. destruct checked; [specialize (N eq_refl)|]; lia. }
  destruct (argmin_ok tab Ne) as (k & Ek & Bk & _). rewrite Ek. cbn [bind].
  destruct (Qltb _ best) eqn:Q; [|apply IH, B]. apply Qltb_true in Q.
  assert (Lt : (nth k tab 0 < e10)%Q). { assert (0 < em20)%Q by reflexivity. lra. }
  assert (Kv : (k < length vals)%nat).
  { destruct (lt_dec k (length vals)) as [X|X]; [exact X|]. exfalso.
    assert (E : nth k tab 0%Q = e10).
    { unfold tab. rewrite app_nth2 by lia. apply (repeat_spec (table_size checked n_D2 (length rest) - length vals)). apply nth_In. unfold tab in Bk. rewrite app_length in Bk. lia. }
    rewrite E in Lt. lra. }
  destruct (nth_error rest k) as [j|] eqn:Nj.
  - apply IH. lra.
  - exfalso. apply nth_error_None in Nj. rewrite firstn_length in Lv. lia.
Qed.
End Pass.
