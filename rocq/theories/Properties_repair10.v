(* Properties_repair10.v - C34: repair for balance and the 10% rule on ply counts. *)
From Coq Require Import Qround Lqa.
From Verif Require Import Base Constraints ConstraintsProofs Guidelines SpecGuidelines GuidelinesProofs GateProofs
  Divide DivideProofs Moments MomentsProofs Repair10 Repair10Proofs Properties_guidelines.
Local Open Scope Z_scope.

(** [ss] has unknown plies (666) and [queue] are the plies to put there: [t] is a laminate
    made by filling the unknown plies with the queue in any order (symmetric laminates: the
    queue fills the lower half and the upper half mirrors it) *)
Definition fills (sym : bool) (ss queue t : list Z) : Prop :=
  length t = length ss /\
  (forall i, (i < length ss)%nat -> nth i ss 0 <> 666 -> nth i t 0 = nth i ss 0) /\
  (sym = true -> t = rev t) /\
  Permutation queue (map (fun i => nth i t 0)
    (filter (fun i => nth i ss 0 =? 666) (seq 0 (if sym then length ss / 2 else length ss)))).

(** the minima fit into the plies that are placed freely *)
Definition room (c : cons) (n : nat) : Prop :=
  let m := calc_mini_10 c n in
  Qceiling (mini_0 m) + Qceiling (mini_90 m) + Z.max (mini_45 m + mini_135 m) (mini_45_135 m)
  <= Z.of_nat (if sym c then n / 2 else n).

(* ------------------------------------------------------------------ *)
Lemma set_middle_length sym ss : length (set_middle sym ss) = length ss.
Proof. unfold set_middle. destruct (_ && _)%bool; [apply upd_length|reflexivity]. Qed.
Lemma set_middle_nth sym ss i : (i < length ss)%nat -> ~ (sym = true /\ Nat.odd (length ss) = true /\ i = (length ss / 2)%nat) ->
  nth i (set_middle sym ss) 0 = nth i ss 0.
Proof.
  intros Hi N. unfold set_middle. destruct (_ && _)%bool eqn:E; [|reflexivity].
  apply andb_true_iff in E; destruct E as [E _]; apply andb_true_iff in E; destruct E as [E1 E2].
  rewrite nth_upd. destruct (Nat.eqb_spec (length ss / 2) i); [|reflexivity]. exfalso; apply N; auto.
Qed.
Lemma set_middle_mid sym ss : sym = true -> Nat.odd (length ss) = true ->
  let x := nth (length ss / 2) (set_middle sym ss) 0 in
  (x = 0 \/ x = 90) /\ (nth (length ss / 2) ss 0 = 0 \/ nth (length ss / 2) ss 0 = 90 -> x = nth (length ss / 2) ss 0).
Proof.
  intros -> Ho x. unfold x, set_middle. rewrite Ho. cbn [andb].
  assert (length ss / 2 < length ss)%nat.
  { destruct ss; [discriminate|]. apply Nat.div_lt; cbn [length]; lia. }
  destruct (negb _) eqn:E.
  - rewrite nth_upd, Nat.eqb_refl. destruct (Nat.ltb_spec (length ss / 2) (length ss)); [|lia]. cbn [andb].
    apply negb_true_iff, orb_false_iff in E. rewrite !Z.eqb_neq in E. split; [auto|tauto].
  - apply negb_false_iff, orb_true_iff in E. rewrite !Z.eqb_eq in E. tauto.
Qed.
Lemma set_middle_ok sym ss : Forall angle_ok ss -> Forall angle_ok (set_middle sym ss).
Proof.
  intros H. unfold set_middle. destruct (_ && _)%bool; [|exact H].
  rewrite Forall_forall in *. intros x Hx. apply (In_nth _ _ 0) in Hx. destruct Hx as [i [Hi <-]].
  rewrite upd_length in Hi. rewrite nth_upd. destruct (_ && _)%bool; [unfold angle_ok; lia|apply H, nth_In, Hi].
Qed.
Lemma set_middle_rev ss : ss = rev ss -> set_middle true ss = rev (set_middle true ss).
Proof.
  intros P. unfold set_middle. destruct (_ && _)%bool eqn:E; [|exact P].
  apply andb_true_iff in E; destruct E as [E _]; apply andb_true_iff in E; destruct E as [_ E].
  apply (list_ext _ _ 0); [rewrite rev_length; reflexivity|].
  intros i Hi. rewrite upd_length in Hi. rewrite rev_nth by (rewrite upd_length; exact Hi). rewrite !nth_upd, upd_length.
  apply Nat.odd_spec in E; destruct E as [h Hh]. rewrite Hh.
  replace ((2 * h + 1) / 2)%nat with h by (apply Nat.div_unique with 1%nat; lia).
  replace (Nat.eqb h (2 * h + 1 - S i)) with (Nat.eqb h i).
  2:{ destruct (Nat.eqb_spec h i), (Nat.eqb_spec h (2 * h + 1 - S i)); lia. }
  destruct (_ && _)%bool; [reflexivity|]. rewrite P at 1. rewrite rev_nth by exact Hi. rewrite Hh; reflexivity.
Qed.

Lemma count_palindrome t x : t = rev t ->
  count x t = 2 * count x (firstn (length t / 2) t) + (if Nat.odd (length t) then if nth (length t / 2) t 0 =? x then 1 else 0 else 0).
Proof.
  intros P. set (h := (length t / 2)%nat).
  pose proof (Nat.div_mod (length t) 2 ltac:(lia)) as D. fold h in D.
  assert (E : skipn (length t - h) t = rev (firstn h t)).
  { rewrite P at 2. rewrite skipn_rev. f_equal. f_equal. lia. }
  rewrite <- (firstn_skipn (length t - h) t) at 1. rewrite count_app, E, count_rev.
  destruct (Nat.odd (length t)) eqn:O.
  - apply Nat.odd_spec in O; destruct O as [k O]. assert (k = h) as -> by (unfold h; apply Nat.div_unique with 1%nat; lia).
    replace (length t - h)%nat with (S h) by lia.
    rewrite <- (firstn_skipn h (firstn (S h) t)), firstn_firstn, count_app. replace (Nat.min h (S h)) with h by lia.
    assert (skipn h (firstn (S h) t) = [nth h t 0]) as ->.
    { apply (list_ext _ _ 0); [rewrite skipn_length, firstn_length; cbn [length]; lia|].
      intros i Hi. rewrite skipn_length, firstn_length in Hi. assert (i = 0)%nat as -> by lia. rewrite nth_skipn, nth_firstn by lia. rewrite Nat.add_0_r; reflexivity. }
    rewrite ccons, count_nil. lia.
  - replace (length t - h)%nat with h; [lia|].
    rewrite <- Nat.negb_even in O. apply negb_false_iff, Nat.even_spec in O; destruct O as [k O].
    assert (k = h) by (unfold h; apply Nat.div_unique with 0%nat; lia). lia.
Qed.

Lemma map_nth_seq (l : list Z) k : (k <= length l)%nat -> map (fun i => nth i l 0) (seq 0 k) = firstn k l.
Proof.
  intros H. apply (list_ext _ _ 0); [rewrite map_length, seq_length, firstn_length; lia|].
  intros i Hi. rewrite map_length, seq_length in Hi.
  rewrite (nth_indep _ 0 ((fun i => nth i l 0) 0%nat)) by (rewrite map_length, seq_length; lia).
  rewrite (map_nth (fun i => nth i l 0)), seq_nth, nth_firstn by lia. reflexivity.
Qed.

(** what the repair returns and what any filling of it contains *)
Lemma repair_core c ss (m : mini10) s' q :
  (ipo c = true \/ rule_10_percent c = true) ->
  Forall angle_ok ss -> 0 <= first_missing c m ->
  zlen (first_queue c m) + first_missing c m <= Z.of_nat (slots (sym c) (length ss)) ->
  repair_10_bal c ss m = (s', q) ->
  let s0 := set_middle (sym c) ss in
  let fq := first_queue c m in
  exists k, (k <= slots (sym c) (length ss))%nat /\ length q = (slots (sym c) (length ss) - k)%nat /\
    s' = forget (sym c) (skipn k (ind_plies (sym c) (length ss))) s0 /\
    let p := map (fun i => nth i s0 0) (firstn k (ind_plies (sym c) (length ss))) in
    (forall x, count x fq <= both p q x) /\
    (ipo c = true -> first_missing c m = 0 -> forall x, x <> 0 -> Z.abs x <> 90 -> both p q x - both p q (- x) = count x fq - count (- x) fq) /\
    count 45 fq + count (-45) fq + first_missing c m <= both p q 45 + both p q (-45).
Proof.
  intros On Hok Hm Hroom R s0 fq. unfold repair_10_bal, repair_10_bal_2 in R.
  assert (negb (ipo c) && negb (rule_10_percent c) = false)%bool as F.
  { destruct On as [->| ->]; [reflexivity|apply andb_false_r]. }
  rewrite F in R. cbv zeta in R. rewrite set_middle_length in R. fold s0 in R. fold fq in R.
  set (inds := ind_plies (sym c) (length ss)) in *.
  assert (Li : length inds = slots (sym c) (length ss)) by apply ind_plies_length.
  set (l := map (fun i => nth i s0 0) inds) in *.
  assert (Ll : zlen l = Z.of_nat (slots (sym c) (length ss))) by (unfold zlen, l; rewrite map_length, Li; reflexivity).
  destruct (queue_loop (ipo c) l fq (first_missing c m)) as [[[k q2] m2] ch] eqn:Q.
  assert (Hr : zlen fq + first_missing c m <= zlen l) by (rewrite Ll; exact Hroom).
  destruct (queue_loop_spec _ _ _ _ _ _ _ _ Hm Hr Q) as (I1 & I2 & I3 & I4 & I5 & I6 & I7 & I8).
  assert (Hk : (k <= slots (sym c) (length ss))%nat) by (unfold l in I1; rewrite map_length, Li in I1; exact I1).
  apply pair_equal_spec in R; destruct R as [R1 R2].
  exists k. split; [exact Hk|].
  set (q3 := q2 ++ extra_45 m2) in *.
  assert (L3 : zlen q3 = zlen q2 + m2) by (unfold q3; rewrite zlen_app, extra_45_length; lia).
  assert (Ext : exists z, q = q3 ++ z /\ (z = [] \/ z = [0]) /\ length q = (slots (sym c) (length ss) - k)%nat).
  { rewrite Li in R2. unfold zlen in *. destruct ch; cbn [andb] in R2.
    - destruct (Nat.eqb_spec (k + length q3) (slots (sym c) (length ss))) as [E|E]; cbn [negb] in R2; subst q.
      + exists []; rewrite app_nil_r; split; [reflexivity|]. split; [auto|]. lia.
      + exists [0]; split; [reflexivity|]. split; [auto|]. rewrite app_length; cbn [length]. destruct (I4 eq_refl); lia.
    - subst q. exists []; rewrite app_nil_r; split; [reflexivity|]. split; [auto|].
      destruct (I3 eq_refl) as (K1 & K2 & K3). subst q2 m2. unfold l in K1; rewrite map_length, Li in K1. cbn [length app] in L3. lia. }
  destruct Ext as (z & -> & Hz & Lq). split; [exact Lq|]. split; [symmetry; exact R1|].
  cbv zeta. rewrite <- firstn_map. change (map (fun i => nth i s0 0) inds) with l. set (p := firstn k l) in *.
  pose proof (extra_45_count m2) as E45.
  assert (Cz : forall x, x <> 0 -> count x z = 0).
  { intros x Nx. destruct Hz as [->| ->]; [reflexivity|]. rewrite ccons, count_nil. destruct (Z.eqb_spec 0 x); [congruence|lia]. }
  unfold both, q3 in *. split; [|split].
  - intros x. specialize (I5 x). rewrite !count_app. pose proof (count_nonneg x (extra_45 m2)). pose proof (count_nonneg x z). lia.
  - intros Hi M0 x N0 N90. rewrite (I6 Hi) in *. rewrite M0 in *. specialize (I7 Hi x N0 N90). rewrite !count_app.
    rewrite (Cz x), (Cz (- x)) by lia. cbn [extra_45 Z.to_nat seq map]. rewrite !count_nil. lia.
  - rewrite !count_app. rewrite !Cz by lia. lia.
Qed.

Lemma NoDup_app_not_in {A} (a b : list A) : NoDup (a ++ b) -> forall x, In x a -> In x b -> False.
Proof.
  induction a as [|y a IH]; intros H x Ha Hb; [destruct Ha|]. cbn [app] in H. apply NoDup_cons_iff in H; destruct H as [H1 H2].
  destruct Ha as [->|Ha]; [apply H1, in_or_app; now right|exact (IH H2 x Ha Hb)].
Qed.

Lemma NoDup_app_r {A} (a b : list A) : NoDup (a ++ b) -> NoDup b.
Proof. induction a as [|y a IH]; intros H; [exact H|]. cbn [app] in H. apply NoDup_cons_iff in H; destruct H as [_ H2]; auto. Qed.

Lemma fills_counts sy s0 k q t :
  (k <= slots sy (length s0))%nat -> Forall angle_ok s0 ->
  let inds := ind_plies sy (length s0) in
  let s' := forget sy (skipn k inds) s0 in
  fills sy s' q t ->
  forall x, count x (firstn (slots sy (length s0)) t) = both (map (fun i => nth i s0 0) (firstn k inds)) q x.
Proof.
  intros Hk Hok inds s' (F1 & F2 & F3 & F4) x.
  assert (Ls' : length s' = length s0) by apply forget_length. rewrite Ls' in *.
  assert (Sl : (slots sy (length s0) <= length s0)%nat).
  { unfold slots; destruct sy; [apply Nat.div_le_upper_bound|]; lia. }
  assert (In' : forall j, In j inds -> (j < length s0)%nat) by (intros j Hj; apply ind_plies_in in Hj; lia).
  pose proof (ind_plies_nodup sy (length s0)) as Nd. fold inds in Nd.
  assert (Sk : forall j, In j (skipn k inds) -> In j inds) by (intros j Hj; rewrite <- (firstn_skipn k inds); apply in_or_app; now right).
  assert (Fk : forall j, In j (firstn k inds) -> In j inds) by (intros j Hj; rewrite <- (firstn_skipn k inds); apply in_or_app; now left).
  assert (N666 : forall i, (i < length s0)%nat -> nth i s0 0 <> 666).
  { intros i Hi E. rewrite Forall_forall in Hok. specialize (Hok _ (nth_In s0 0 Hi)). rewrite E in Hok. unfold angle_ok in Hok; lia. }
  (* which slots are unknown *)
  assert (U : forall i, (i < slots sy (length s0))%nat -> nth i s' 0 = if existsb (Nat.eqb i) (skipn k inds) then 666 else nth i s0 0).
  { intros i Hi. unfold s'. rewrite forget_nth; [|intros j Hj; apply In', Sk, Hj|lia].
    destruct (existsb (Nat.eqb i) (skipn k inds)); cbn [orb]; [reflexivity|].
    destruct sy; cbn [andb]; [|reflexivity].
    destruct (existsb _ _) eqn:E; [|reflexivity]. exfalso.
    apply existsb_exists in E; destruct E as [j [Hj E]]. apply Nat.eqb_eq in E. apply Sk, ind_plies_in in Hj.
    unfold slots in *. pose proof (Nat.div_mod (length s0) 2 ltac:(lia)). lia. }
  rewrite <- map_nth_seq by lia.
  rewrite (count_perm x _ (map (fun i => nth i t 0) inds)).
  2:{ apply Permutation_map, Permutation_sym, ind_plies_perm. }
  rewrite <- (firstn_skipn k inds) at 1. rewrite map_app, count_app. unfold both. f_equal.
  - f_equal. apply map_ext_in. intros i Hi.
    assert (Hs : (i < slots sy (length s0))%nat) by (apply ind_plies_in, Fk, Hi).
    specialize (U i Hs).
    assert (existsb (Nat.eqb i) (skipn k inds) = false) as Ex.
    { destruct (existsb _ _) eqn:E; [|reflexivity]. exfalso. apply existsb_exists in E; destruct E as [j [Hj E]]. apply Nat.eqb_eq in E; subst j.
      rewrite <- (firstn_skipn k inds) in Nd. apply (NoDup_app_not_in _ _ Nd _ Hi Hj). }
    rewrite Ex in U. rewrite F2; [exact U|lia|]. rewrite U. apply N666; lia.
  - symmetry. apply count_perm. rewrite F4. apply Permutation_map.
    apply NoDup_Permutation.
    + apply NoDup_filter, seq_NoDup.
    + rewrite <- (firstn_skipn k inds) in Nd. exact (NoDup_app_r _ _ Nd).
    + intros i. rewrite filter_In, in_seq, Z.eqb_eq. unfold slots in U. split.
      * intros [Hi E]. rewrite U in E by lia. destruct (existsb _ _) eqn:Ex; [|exfalso; apply (N666 i); [unfold slots in Sl; lia|exact E]].
        apply existsb_exists in Ex; destruct Ex as [j [Hj Ej]]. apply Nat.eqb_eq in Ej; subst; exact Hj.
      * intros Hi. assert (Hs : (i < slots sy (length s0))%nat) by (apply ind_plies_in, Sk, Hi). unfold slots in Hs.
        split; [lia|]. rewrite U by exact Hs. replace (existsb (Nat.eqb i) (skipn k inds)) with true; [reflexivity|].
        symmetry; apply existsb_exists; exists i; split; [exact Hi|apply Nat.eqb_refl].
Qed.

Lemma first_queue_count c m x : 0 <= Qceiling (mini_0 m) -> 0 <= Qceiling (mini_90 m) -> 0 <= mini_45 m -> 0 <= mini_135 m ->
  count x (first_queue c m) =
  if rule_10_percent c then
    (if x =? 0 then Qceiling (mini_0 m) else 0) + (if x =? 90 then Qceiling (mini_90 m) else 0) +
    (if x =? 45 then mini_45 m else 0) + (if x =? -45 then mini_135 m else 0)
  else 0.
Proof.
  intros H0 H90 H45 H135. unfold first_queue. destruct (rule_10_percent c); [|reflexivity].
  assert (R : forall y n, count x (repeat y n) = if x =? y then Z.of_nat n else 0).
  { intros y n. induction n as [|n IH]; [cbn [repeat]; rewrite count_nil; destruct (x =? y); reflexivity|].
    cbn [repeat]. rewrite ccons, IH, (Z.eqb_sym y x). destruct (x =? y); lia. }
  rewrite !count_app, !R, !Z2Nat.id by assumption. lia.
Qed.

Lemma first_queue_length c m : 0 <= Qceiling (mini_0 m) -> 0 <= Qceiling (mini_90 m) -> 0 <= mini_45 m -> 0 <= mini_135 m ->
  zlen (first_queue c m) = if rule_10_percent c then Qceiling (mini_0 m) + Qceiling (mini_90 m) + mini_45 m + mini_135 m else 0.
Proof.
  intros H0 H90 H45 H135. unfold first_queue, zlen. destruct (rule_10_percent c); [|reflexivity].
  rewrite !app_length, !repeat_length. lia.
Qed.

Lemma share_ge p a t (z : Z) : t <> [] -> ceil_share p (length t) <= z -> z <= count a t -> (p <= share_of a t + 0)%Q.
Proof.
  intros Nt H1 H2. rewrite Qplus_0_r. unfold share_of. change (Z.of_nat (count_occ Z.eq_dec t a)) with (count a t).
  assert (0 < inject_Z (Z.of_nat (length t)))%Q.
  { change 0%Q with (inject_Z 0). rewrite <- Zlt_Qlt. destruct t; [congruence|cbn [length]; lia]. }
  apply Qle_shift_div_l; [assumption|]. eapply Qle_trans; [apply ceil_share_ge|]. rewrite <- Zle_Qle. lia.
Qed.
Lemma share_ge2 p a b t : t <> [] -> ceil_share p (length t) <= count a t + count b t -> (p <= share_of a t + share_of b t + 0)%Q.
Proof.
  intros Nt H1. rewrite Qplus_0_r. unfold share_of.
  change (Z.of_nat (count_occ Z.eq_dec t a)) with (count a t). change (Z.of_nat (count_occ Z.eq_dec t b)) with (count b t).
  assert (0 < inject_Z (Z.of_nat (length t)))%Q as P.
  { change 0%Q with (inject_Z 0). rewrite <- Zlt_Qlt. destruct t; [congruence|cbn [length]; lia]. }
  setoid_replace (inject_Z (count a t) / inject_Z (Z.of_nat (length t)) + inject_Z (count b t) / inject_Z (Z.of_nat (length t)))%Q
    with (inject_Z (count a t + count b t) / inject_Z (Z.of_nat (length t)))%Q.
  2:{ rewrite inject_Z_plus. field. intros E; rewrite E in P; apply Qlt_irrefl in P; exact P. }
  apply Qle_shift_div_l; [assumption|]. eapply Qle_trans; [apply ceil_share_ge|]. rewrite <- Zle_Qle. lia.
Qed.

(** a filled laminate has at least the plies of the first queue, is balanced when it must be
    and has a middle ply at 0 or 90 *)
Lemma forget_middle sy n k : forall ss, length ss = n -> sy = true -> Nat.odd n = true ->
  nth (n / 2) (forget sy (skipn k (ind_plies sy n)) ss) 0 = nth (n / 2) ss 0.
Proof.
  intros ss L -> O. apply Nat.odd_spec in O; destruct O as [h Hh].
  assert (n / 2 = h)%nat as Eh by (symmetry; apply Nat.div_unique with 1%nat; lia).
  assert (Sk : forall j, In j (skipn k (ind_plies true n)) -> (j < h)%nat).
  { intros j Hj. assert (In j (ind_plies true n)) as Hi by (rewrite <- (firstn_skipn k (ind_plies true n)); apply in_or_app; now right).
    apply ind_plies_in in Hi. unfold slots in Hi. lia. }
  rewrite forget_nth; [|intros j Hj; specialize (Sk j Hj); lia|lia].
  rewrite Eh. destruct (_ || _)%bool eqn:E; [|reflexivity]. exfalso.
  apply orb_true_iff in E. cbn [andb] in E. destruct E as [E|E]; apply existsb_exists in E; destruct E as [j [Hj E]]; apply Nat.eqb_eq in E;
    specialize (Sk j Hj); lia.
Qed.

Lemma repair_2_spec a c ss s' q :
  mk_cons a = Ok c ->
  ss <> [] -> Forall angle_ok ss -> (sym c = true -> ss = rev ss) -> room c (length ss) ->
  repair_10_bal_2 c ss (calc_mini_10 c (length ss)) = (s', q) ->
  length s' = length ss /\ (sym c = true -> s' = rev s') /\
  (forall i, (i < length ss)%nat -> nth i s' 0 = 666 \/ nth i s' 0 = nth i ss 0 \/
     (sym c = true /\ length ss = (2 * i + 1)%nat /\ nth i ss 0 <> 90 /\ nth i s' 0 = 0)) /\
  Z.of_nat (length q) = count 666 (firstn (if sym c then length ss / 2 else length ss) s') /\
  forall t, fills (sym c) s' q t ->
    (ipo c = true -> balanced t) /\ ten_spec 0 false false c t /\
    ((ipo c = true \/ rule_10_percent c = true) -> sym c = true -> Nat.odd (length ss) = true ->
       nth (length ss / 2) t 0 = 0 \/ nth (length ss / 2) t 0 = 90).
Proof.
  intros MK Ne Ok0 Sy Rm R.
  pose proof (mk_cons_consistent _ _ MK) as K.
  pose proof (calc_mini_10_spec c (length ss) K) as (M0 & M90 & M45 & M135 & Mpm & Meq & F0 & Fi & Fs & C0 & C90 & C45 & C135 & Cpm).
  set (m := calc_mini_10 c (length ss)) in *.
  destruct (negb (ipo c) && negb (rule_10_percent c))%bool eqn:Off.
  - (* nothing asked for *)
    unfold repair_10_bal_2 in R. rewrite Off in R. apply pair_equal_spec in R; destruct R as [<- <-].
    apply andb_true_iff in Off; destruct Off as [O1 O2]. apply negb_true_iff in O1, O2.
    split; [reflexivity|]. split; [exact Sy|]. split; [auto|]. split.
    { symmetry. unfold count. rewrite (proj1 (count_occ_not_In Z.eq_dec _ _)); [reflexivity|].
      intros H. assert (In 666 ss) as H2 by (rewrite <- (firstn_skipn (if sym c then length ss / 2 else length ss) ss); apply in_or_app; now left).
      rewrite Forall_forall in Ok0. specialize (Ok0 _ H2). unfold angle_ok in Ok0; lia. }
    intros t F. split; [congruence|]. split; [|intros [?|?]; congruence].
    destruct (k_pct_off _ K (or_introl O2)) as (Z1 & Z2 & Z3 & Z4 & Z5 & _).
    assert (Sh : forall x, (0 <= share_of x t)%Q).
    { intros x. unfold share_of. destruct (Nat.eq_dec (length t) 0) as [E|E].
      - rewrite E. unfold Qdiv. change (/ inject_Z (Z.of_nat 0))%Q with 0%Q. rewrite Qmult_0_r. apply Qle_refl.
      - apply Qle_shift_div_l; [change 0%Q with (inject_Z 0); rewrite <- Zlt_Qlt; lia|]. rewrite Qmult_0_l. change 0%Q with (inject_Z 0); rewrite <- Zle_Qle; lia. }
    unfold ten_spec. rewrite Z1, Z2, Z3, Z4, Z5.
    pose proof (Sh 0); pose proof (Sh 90); pose proof (Sh 45); pose proof (Sh (-45)).
    repeat split; intros; try discriminate; lra.
  - assert (On : ipo c = true \/ rule_10_percent c = true).
    { destruct (ipo c); [auto|]. destruct (rule_10_percent c); [auto|discriminate]. }
    assert (Rm' : zlen (first_queue c m) + first_missing c m <= Z.of_nat (slots (sym c) (length ss))).
    { rewrite first_queue_length by assumption. unfold room in Rm. fold m in Rm. cbv zeta in Rm. unfold slots.
      unfold first_missing. destruct (rule_10_percent c); cbn [andb]; [|destruct (sym c); lia].
      clear - Rm M45 M135 Mpm. revert Rm. generalize (Z.of_nat (if sym c then (length ss / 2)%nat else length ss)).
      intros N Rm. destruct (negb (Qeq_bool (percent_45_135 c) 0)); lia. }
    destruct (repair_core c ss m s' q On Ok0 F0 Rm' R) as (k & Hk & Lq & Es & P1 & P2 & P3).
    set (s0 := set_middle (sym c) ss) in *. set (fq := first_queue c m) in *.
    set (inds := ind_plies (sym c) (length ss)) in *.
    assert (L0 : length s0 = length ss) by apply set_middle_length.
    assert (Ls : length s' = length ss) by (rewrite Es, forget_length; exact L0).
    assert (Ok1 : Forall angle_ok s0) by (apply set_middle_ok; exact Ok0).
    assert (In' : forall j, In j (skipn k inds) -> (j < slots (sym c) (length ss))%nat).
    { intros j Hj. apply ind_plies_in. fold inds. rewrite <- (firstn_skipn k inds); apply in_or_app; now right. }
    assert (Sl : (slots (sym c) (length ss) <= length ss)%nat).
    { unfold slots; destruct (sym c); [apply Nat.div_le_upper_bound|]; lia. }
    assert (Nth : forall i, (i < length ss)%nat -> nth i s' 0 = if (existsb (Nat.eqb i) (skipn k inds) || (sym c && existsb (fun j => Nat.eqb (length ss - j - 1) i) (skipn k inds)))%bool then 666 else nth i s0 0).
    { intros i Hi. rewrite Es, forget_nth, L0; [reflexivity| |rewrite L0; exact Hi]. intros j Hj. specialize (In' j Hj). lia. }
    split; [exact Ls|]. split; [|split; [|split]].
    + intros Es0. apply (list_ext _ _ 0); [rewrite rev_length; reflexivity|]. intros i Hi. rewrite rev_nth by exact Hi. rewrite Ls in *.
      rewrite !Nth by lia. rewrite Es0. cbn [andb].
      assert (Hs : s0 = rev s0) by (unfold s0; rewrite Es0; apply set_middle_rev, Sy, Es0).
      assert (nth (length ss - S i) s0 0 = nth i s0 0) as ->.
      { rewrite Hs at 2. rewrite rev_nth by lia. rewrite L0; reflexivity. }
      assert (E1 : existsb (fun j => Nat.eqb (length ss - j - 1) i) (skipn k inds) = existsb (Nat.eqb (length ss - S i)) (skipn k inds)).
      { apply eq_true_iff_eq. rewrite !existsb_exists. split; intros [j [Hj E]]; exists j; (split; [exact Hj|]); specialize (In' j Hj); rewrite Nat.eqb_eq in *; lia. }
      assert (E2 : existsb (fun j => Nat.eqb (length ss - j - 1) (length ss - S i)) (skipn k inds) = existsb (Nat.eqb i) (skipn k inds)).
      { apply eq_true_iff_eq. rewrite !existsb_exists. split; intros [j [Hj E]]; exists j; (split; [exact Hj|]); specialize (In' j Hj); rewrite Nat.eqb_eq in *; lia. }
      rewrite E1, E2, orb_comm. reflexivity.
    + intros i Hi. rewrite Nth by exact Hi. destruct (_ || _)%bool; [auto|]. right.
      destruct (Bool.bool_dec (sym c) true) as [Es0|Es0]; [|left; apply set_middle_nth; [exact Hi|intuition]].
      destruct (Bool.bool_dec (Nat.odd (length ss)) true) as [O|O]; [|left; apply set_middle_nth; [exact Hi|intuition]].
      destruct (Nat.eq_dec i (length ss / 2)) as [->|N]; [|left; apply set_middle_nth; [exact Hi|intuition]].
      destruct (set_middle_mid (sym c) ss Es0 O) as [X1 X2]. fold s0 in X1, X2. cbv zeta in X1, X2.
      destruct (Z.eq_dec (nth (length ss / 2) ss 0) 0) as [A|A]; [left; apply X2; auto|].
      destruct (Z.eq_dec (nth (length ss / 2) ss 0) 90) as [B|B]; [left; apply X2; auto|].
      right. split; [exact Es0|]. apply Nat.odd_spec in O; destruct O as [h Hh].
      assert (length ss / 2 = h)%nat as Eh by (symmetry; apply Nat.div_unique with 1%nat; lia).
      split; [lia|]. split; [exact B|]. revert X1. unfold s0, set_middle. rewrite Es0, Hh.
      replace (Nat.odd (2 * h + 1)) with true by (symmetry; apply Nat.odd_spec; exists h; lia). rewrite <- Hh.
      rewrite (proj2 (Z.eqb_neq _ _) A), (proj2 (Z.eqb_neq _ _) B). cbn [andb orb negb].
      rewrite nth_upd, Nat.eqb_refl. destruct (Nat.ltb_spec (length ss / 2) (length ss)); [reflexivity|lia].
    + change (if sym c then (length ss / 2)%nat else length ss) with (slots (sym c) (length ss)). rewrite Lq.
      rewrite <- map_nth_seq by lia.
      rewrite (count_perm 666 _ (map (fun i => nth i s' 0) inds)).
      2:{ apply Permutation_map, Permutation_sym, ind_plies_perm. }
      rewrite <- (firstn_skipn k inds), map_app, count_app.
      assert (Nd : NoDup inds) by apply ind_plies_nodup.
      assert (count 666 (map (fun i => nth i s' 0) (firstn k inds)) = 0) as ->.
      { unfold count. rewrite (proj1 (count_occ_not_In Z.eq_dec _ _)); [reflexivity|]. intros H. apply in_map_iff in H. destruct H as [i [H Hi]].
        assert (Hs : (i < slots (sym c) (length ss))%nat) by (apply ind_plies_in; fold inds; rewrite <- (firstn_skipn k inds); apply in_or_app; now left).
        rewrite Nth in H by lia.
        destruct (_ || _)%bool eqn:E.
        - apply orb_true_iff in E. destruct E as [E|E].
          + apply existsb_exists in E; destruct E as [j [Hj E]]. apply Nat.eqb_eq in E; subst j.
            rewrite <- (firstn_skipn k inds) in Nd. exact (NoDup_app_not_in _ _ Nd _ Hi Hj).
          + apply andb_true_iff in E; destruct E as [E0 E]. apply existsb_exists in E; destruct E as [j [Hj E]]. apply Nat.eqb_eq in E.
            specialize (In' j Hj). unfold slots in *. rewrite E0 in *. pose proof (Nat.div_mod (length ss) 2 ltac:(lia)). lia.
        - rewrite Forall_forall in Ok1. assert (In (nth i s0 0) s0) as HI by (apply nth_In; lia). specialize (Ok1 _ HI). rewrite H in Ok1. unfold angle_ok in Ok1; lia. }
      assert (map (fun i => nth i s' 0) (skipn k inds) = repeat 666 (length (skipn k inds))) as ->.
      { apply (list_ext _ _ 666); [rewrite map_length, repeat_length; reflexivity|]. intros j Hj. rewrite map_length in Hj.
        rewrite nth_repeat. rewrite (nth_indep _ 666 ((fun i => nth i s' 0) 0%nat)) by (rewrite map_length; exact Hj).
        rewrite (map_nth (fun i => nth i s' 0)). assert (HI : In (nth j (skipn k inds) 0%nat) (skipn k inds)) by (apply nth_In; exact Hj).
        pose proof (In' _ HI). rewrite Nth by lia.
        replace (existsb (Nat.eqb (nth j (skipn k inds) 0%nat)) (skipn k inds)) with true; [reflexivity|].
        symmetry; apply existsb_exists; eexists; split; [exact HI|apply Nat.eqb_refl]. }
      unfold count. rewrite count_occ_repeat_eq by reflexivity. rewrite skipn_length. f_equal.
      unfold inds; rewrite ind_plies_length; lia.
    + intros t F. pose proof F as (T1 & T2 & T3 & _). rewrite Ls in T1, T2.
      pose proof (fills_counts (sym c) s0 k q t) as FC. cbv zeta in FC; rewrite L0 in FC. fold inds in FC. rewrite <- Es in FC.
      specialize (FC Hk Ok1 F). cbv zeta in P1, P2, P3.
      set (p := map (fun i => nth i s0 0) (firstn k inds)) in *.
      assert (Mid : sym c = true -> Nat.odd (length ss) = true -> nth (length ss / 2) t 0 = 0 \/ nth (length ss / 2) t 0 = 90).
      { intros Es0 O. destruct (set_middle_mid (sym c) ss Es0 O) as [X1 _]. fold s0 in X1. cbv zeta in X1.
        assert (length ss / 2 < length ss)%nat by (destruct ss; [congruence|]; apply Nat.div_lt; cbn [length]; lia).
        pose proof (forget_middle (sym c) (length ss) k s0 L0 Es0 O) as FM. fold inds in FM. rewrite <- Es in FM.
        rewrite T2; [rewrite FM; exact X1|lia|]. rewrite FM. lia. }
      (* counts of t *)
      assert (Ct : forall x, count x t = unit_of (sym c) * both p q x + (if (sym c && Nat.odd (length ss))%bool then if nth (length ss / 2) t 0 =? x then 1 else 0 else 0)).
      { intros x. rewrite <- FC. unfold unit_of, slots. destruct (sym c) eqn:Es0; cbn [andb].
        - rewrite (count_palindrome t x (T3 eq_refl)) at 1. rewrite T1. lia.
        - rewrite <- T1, firstn_all. lia. }
      assert (Cge : forall x, unit_of (sym c) * count x fq <= count x t).
      { intros x. rewrite Ct. specialize (P1 x). assert (0 < unit_of (sym c)) by (unfold unit_of; destruct (sym c); lia).
        pose proof (Z.mul_le_mono_nonneg_l _ _ (unit_of (sym c)) ltac:(lia) P1).
        assert (0 <= (if (sym c && Nat.odd (length ss))%bool then if nth (length ss / 2) t 0 =? x then 1 else 0 else 0)).
        { destruct (sym c && Nat.odd (length ss))%bool; [destruct (nth (length ss / 2) t 0 =? x)|]; lia. }
        lia. }
      assert (Nt : t <> []) by (intros ->; cbn [length] in T1; destruct ss; [congruence|discriminate]).
      split; [|split; [|intros _; exact Mid]].
      * intros Hi. pose proof (P2 Hi (Fi Hi)) as B. intros x N0 N90. apply Nat2Z.inj. change (count x t = count (- x) t). rewrite !Ct.
        specialize (B x N0 N90). unfold fq in B. rewrite !first_queue_count in B by assumption. rewrite (Meq Hi) in B.
        assert (both p q x = both p q (- x)) as ->.
        { destruct (rule_10_percent c); [|lia].
          replace (x =? 90) with false in B by (symmetry; apply Z.eqb_neq; lia). replace (- x =? 90) with false in B by (symmetry; apply Z.eqb_neq; lia).
          replace (x =? 0) with false in B by (symmetry; apply Z.eqb_neq; lia). replace (- x =? 0) with false in B by (symmetry; apply Z.eqb_neq; lia).
          replace (- x =? 45) with (x =? -45) in B by (destruct (Z.eqb_spec x (-45)), (Z.eqb_spec (- x) 45); lia).
          replace (- x =? -45) with (x =? 45) in B by (destruct (Z.eqb_spec x 45), (Z.eqb_spec (- x) (-45)); lia). lia. }
        f_equal. destruct (sym c && Nat.odd (length ss))%bool eqn:E; [|reflexivity].
        apply andb_true_iff in E; destruct E as [E1 E2]. destruct (Mid E1 E2) as [->| ->].
        -- replace (0 =? x) with false by (symmetry; apply Z.eqb_neq; lia). replace (0 =? - x) with false by (symmetry; apply Z.eqb_neq; lia). reflexivity.
        -- replace (90 =? x) with false by (symmetry; apply Z.eqb_neq; lia). replace (90 =? - x) with false by (symmetry; apply Z.eqb_neq; lia). reflexivity.
      * assert (Gen : rule_10_percent c = true ->
           ceil_share (percent_0 c) (length t) <= count 0 t /\ ceil_share (percent_90 c) (length t) <= count 90 t /\
           ceil_share (percent_45 c) (length t) <= count 45 t /\ ceil_share (percent_135 c) (length t) <= count (-45) t /\
           ceil_share (percent_45_135 c) (length t) <= count 45 t + count (-45) t).
        { intros Rl. rewrite T1. pose proof (Cge 0) as G0. pose proof (Cge 90) as G90. pose proof (Cge 45) as G45. pose proof (Cge (-45)) as G135.
          unfold fq in G0, G90, G45, G135, P3. rewrite !first_queue_count in * by assumption. rewrite Rl in *. cbn [Z.eqb Pos.eqb] in *.
          assert (U : 0 < unit_of (sym c)) by (unfold unit_of; destruct (sym c); lia).
          assert (G : unit_of (sym c) * (mini_45 m + mini_135 m + first_missing c m) <= count 45 t + count (-45) t).
          { rewrite !Ct. assert (mini_45 m + mini_135 m + first_missing c m <= both p q 45 + both p q (-45)) by lia.
            pose proof (Z.mul_le_mono_nonneg_l _ _ (unit_of (sym c)) ltac:(lia) H).
            destruct (sym c && Nat.odd (length ss))%bool; [destruct (nth (length ss / 2) t 0 =? 45), (nth (length ss / 2) t 0 =? -45)|]; lia. }
          pose proof (Z.mul_le_mono_nonneg_l _ _ (unit_of (sym c)) ltac:(lia) Fs).
          split; [lia|]. split; [lia|]. split; [lia|]. split; [lia|]. lia. }
        unfold ten_spec. destruct (rule_10_percent c) eqn:Rl.
        -- destruct (Gen eq_refl) as (G0 & G90 & G45 & G135 & Gpm).
           split; [intros _; split; [exact (share_ge _ _ _ _ Nt G0 (Z.le_refl _))|exact (share_ge _ _ _ _ Nt G90 (Z.le_refl _))]|].
           split; [discriminate|]. split; [intros _; split; [exact (share_ge _ _ _ _ Nt G45 (Z.le_refl _))|exact (share_ge _ _ _ _ Nt G135 (Z.le_refl _))]|].
           split; [discriminate|]. apply share_ge2; assumption.
        -- destruct (k_pct_off _ K (or_introl Rl)) as (Z1 & Z2 & Z3 & Z4 & Z5 & _).
           assert (Sh : forall y, (0 <= share_of y t)%Q).
           { intros y. unfold share_of. apply Qle_shift_div_l; [change 0%Q with (inject_Z 0); rewrite <- Zlt_Qlt; destruct t; [congruence|cbn [length]; lia]|].
             rewrite Qmult_0_l. change 0%Q with (inject_Z 0); rewrite <- Zle_Qle; lia. }
           rewrite Z1, Z2, Z3, Z4, Z5. pose proof (Sh 0); pose proof (Sh 90); pose proof (Sh 45); pose proof (Sh (-45)).
           repeat split; intros; try discriminate; lra.
Qed.

Theorem C34_repair a c ss s' q :
  mk_cons a = Ok c -> (rule_10_percent c && rule_10_Abdalla c)%bool = false ->
  ss <> [] -> Forall angle_ok ss -> (sym c = true -> ss = rev ss) -> room c (length ss) ->
  repair_10_bal c ss (calc_mini_10 c (length ss)) = (s', q) ->
  length s' = length ss /\ (sym c = true -> s' = rev s') /\
  (forall i, (i < length ss)%nat -> nth i s' 0 = 666 \/ nth i s' 0 = nth i ss 0 \/
     (sym c = true /\ length ss = (2 * i + 1)%nat /\ nth i ss 0 <> 90 /\ nth i s' 0 = 0)) /\
  Z.of_nat (length q) = count 666 (firstn (if sym c then length ss / 2 else length ss) s') /\
  forall t, fills (sym c) s' q t ->
    (ipo c = true -> balanced t) /\ ten_spec 0 false false c t /\
    ((ipo c = true \/ rule_10_percent c = true) -> sym c = true -> Nat.odd (length ss) = true ->
       nth (length ss / 2) t 0 = 0 \/ nth (length ss / 2) t 0 = 90).
Proof. intros MK _. unfold repair_10_bal. apply (repair_2_spec a c ss s' q MK). Qed.

(* ------------------------------------------------------------------ *)
(** there is always such a filling *)
Fixpoint put (l q : list Z) : list Z :=
  match l with [] => [] | x :: r => if x =? 666 then hd 0 q :: put r (tl q) else x :: put r q end.

Lemma put_length l : forall q, length (put l q) = length l.
Proof. induction l as [|x l IH]; intros q; cbn [put]; [reflexivity|]. destruct (x =? 666); cbn [length]; rewrite IH; reflexivity. Qed.
Lemma put_known l : forall q i, (i < length l)%nat -> nth i l 0 <> 666 -> nth i (put l q) 0 = nth i l 0.
Proof.
  induction l as [|x l IH]; intros q i Hi N; [cbn [length] in Hi; lia|]. cbn [put length] in *.
  destruct i as [|i]; cbn [nth] in *.
  - destruct (Z.eqb_spec x 666); [contradiction|reflexivity].
  - destruct (x =? 666); cbn [nth]; apply IH; try lia; exact N.
Qed.
Lemma put_unknown l : forall q, Z.of_nat (length q) = count 666 l ->
  map (fun i => nth i (put l q) 0) (filter (fun i => nth i l 0 =? 666) (seq 0 (length l))) = q.
Proof.
  induction l as [|x l IH]; intros q L.
  - rewrite count_nil in L. destruct q; [reflexivity|cbn [length] in L; lia].
  - rewrite ccons in L. cbn [length seq filter]. rewrite <- seq_shift.
    assert (G : forall q', Z.of_nat (length q') = count 666 l -> forall y,
      map (fun i => nth i (y :: put l q') 0) (filter (fun i => nth i (x :: l) 0 =? 666) (map S (seq 0 (length l)))) = q').
    { intros q' L' y. etransitivity; [|apply (IH _ L')]. generalize (seq 0 (length l)) as s. intros s; induction s as [|j s IHs]; [reflexivity|].
      cbn [map filter nth]. destruct (nth j l 0 =? 666); cbn [map nth]; [f_equal|]; exact IHs. }
    change (nth 0 (x :: l) 0) with x. cbn [put]. destruct (x =? 666).
    + destruct q as [|y q]; [cbn [length] in L; pose proof (count_nonneg 666 l); lia|]. cbn [hd tl map]. cbn [nth]. f_equal.
      apply G. cbn [length] in L; lia.
    + apply G. lia.
Qed.

Lemma fills_exists sy s q : (sy = true -> s = rev s) ->
  Z.of_nat (length q) = count 666 (firstn (if sy then length s / 2 else length s) s) -> exists t, fills sy s q t.
Proof.
  intros P L. destruct sy.
  - specialize (P eq_refl). set (h := (length s / 2)%nat) in *.
    assert (Hh : (2 * h <= length s <= 2 * h + 1)%nat).
    { unfold h. pose proof (Nat.div_mod (length s) 2 ltac:(lia)). pose proof (Nat.mod_upper_bound (length s) 2 ltac:(lia)). lia. }
    set (f := put (firstn h s) q). set (mid := firstn (length s - 2 * h) (skipn h s)).
    assert (Lf : length f = h) by (unfold f; rewrite put_length, firstn_length; lia).
    assert (Lm : length mid = (length s - 2 * h)%nat) by (unfold mid; rewrite firstn_length, skipn_length; lia).
    assert (Lt : length (f ++ mid ++ rev f) = length s) by (rewrite !app_length, rev_length; lia).
    assert (Rt : f ++ mid ++ rev f = rev (f ++ mid ++ rev f)).
    { rewrite !rev_app_distr, rev_involutive, <- app_assoc. f_equal. f_equal.
      destruct mid as [|x [|y mid]]; [reflexivity|reflexivity|cbn [length] in Lm; lia]. }
    exists (f ++ mid ++ rev f). split; [exact Lt|]. split; [|split; [intros _; exact Rt|]].
    + assert (A : forall i, (i < length s - h)%nat -> nth i s 0 <> 666 -> nth i (f ++ mid ++ rev f) 0 = nth i s 0).
      { intros i Hi N. destruct (lt_dec i h) as [Hl|Hl].
        - rewrite app_nth1 by lia. unfold f. rewrite put_known; [apply nth_firstn; exact Hl|rewrite firstn_length; lia|rewrite nth_firstn by exact Hl; exact N].
        - rewrite app_nth2 by lia. rewrite app_nth1 by lia. unfold mid. rewrite nth_firstn by lia. rewrite nth_skipn. f_equal. lia. }
      intros i Hi N. destruct (lt_dec i (length s - h)) as [Hl|Hl]; [apply A; assumption|].
      rewrite Rt, rev_nth by lia. rewrite Lt. rewrite A; [|lia|].
      * transitivity (nth i (rev s) 0); [rewrite rev_nth by lia; reflexivity|rewrite <- P; reflexivity].
      * intros E. apply N. transitivity (nth i (rev s) 0); [rewrite <- P; reflexivity|rewrite rev_nth by lia; exact E].
    + rewrite <- (put_unknown (firstn h s) q L) at 1. fold f. rewrite firstn_length, Nat.min_l by lia.
      match goal with |- Permutation ?x ?y => replace y with x; [reflexivity|] end.
      rewrite (filter_ext_in (fun i => nth i s 0 =? 666) (fun i => nth i (firstn h s) 0 =? 666)).
      2:{ intros i Hi. apply in_seq in Hi. rewrite nth_firstn by lia. reflexivity. }
      apply map_ext_in. intros i Hi. apply filter_In in Hi. destruct Hi as [Hi _]. apply in_seq in Hi. rewrite app_nth1 by lia. reflexivity.
  - rewrite firstn_all in L. exists (put s q). split; [apply put_length|]. split; [apply put_known|]. split; [discriminate|].
    rewrite (put_unknown s q L). reflexivity.
Qed.

(** the laminate can be completed *)
Theorem C34_fillable a c ss s' q :
  mk_cons a = Ok c -> (rule_10_percent c && rule_10_Abdalla c)%bool = false ->
  ss <> [] -> Forall angle_ok ss -> (sym c = true -> ss = rev ss) -> room c (length ss) ->
  repair_10_bal c ss (calc_mini_10 c (length ss)) = (s', q) -> exists t, fills (sym c) s' q t.
Proof.
  intros MK Ab Ne Ok0 Sy Rm R. destruct (C34_repair a c ss s' q MK Ab Ne Ok0 Sy Rm R) as (L & P & _ & Q & _).
  apply fills_exists; [exact P|]. rewrite L. exact Q.
Qed.

(* ------------------------------------------------------------------ *)
(** C52: a laminate that meets the rules already is left as it is *)
Lemma submultiset_length (q l : list Z) : (forall x, count x q <= count x l) -> zlen q <= zlen l.
Proof.
  revert l. induction q as [|a q IH]; intros l H; [unfold zlen; cbn [length]; lia|].
  assert (In a l) as Ha.
  { apply (count_occ_In Z.eq_dec). specialize (H a). rewrite ccons, Z.eqb_refl in H. pose proof (count_nonneg a q). unfold count in *; lia. }
  assert (zlen q <= zlen (remove1 a l)).
  { apply IH. intros x. rewrite remove1_count by exact Ha. specialize (H x). rewrite ccons in H. rewrite (Z.eqb_sym x a). destruct (a =? x); lia. }
  rewrite remove1_length in H0 by exact Ha. unfold zlen in *; cbn [length]; lia.
Qed.

Lemma count_filter f x (l : list Z) : count x (filter f l) = if f x then count x l else 0.
Proof.
  induction l as [|y l IH]; cbn [filter]; [rewrite count_nil; destruct (f x); reflexivity|].
  destruct (f y) eqn:E; rewrite ?ccons, IH; destruct (Z.eqb_spec y x) as [->|N]; rewrite ?E; destruct (f x) eqn:E2; try lia; congruence.
Qed.
Definition off45 (x : Z) : bool := negb ((x =? 45) || (x =? -45)).
Lemma length_split45 l : zlen l = zlen (filter off45 l) + count 45 l + count (-45) l.
Proof.
  unfold zlen. induction l as [|y l IH]; [reflexivity|]. rewrite !ccons. cbn [length filter]. unfold off45 at 1.
  destruct (Z.eqb_spec y 45) as [->|N]; cbn [orb negb Z.eqb Pos.eqb length]; [lia|].
  destruct (Z.eqb_spec y (-45)) as [->|N2]; cbn [orb negb length]; lia.
Qed.

Lemma room_left (q l : list Z) m : (forall x, count x q <= count x l) ->
  count 45 q + count (-45) q + m <= count 45 l + count (-45) l -> zlen q + m <= zlen l.
Proof.
  intros H1 H2. rewrite (length_split45 q), (length_split45 l).
  pose proof (submultiset_length (filter off45 q) (filter off45 l)) as X.
  assert (zlen (filter off45 q) <= zlen (filter off45 l)).
  { apply X. intros x. rewrite !count_filter. destruct (off45 x); [apply H1|lia]. }
  lia.
Qed.

Lemma loop_keeps ipo l : Forall angle_ok l -> forall q m, 0 <= m -> (ipo = true -> m = 0) ->
  (forall x, count x q <= count x l) ->
  count 45 q + count (-45) q + m <= count 45 l + count (-45) l ->
  (ipo = true -> forall x, x <> 0 -> Z.abs x <> 90 -> count x l - count x q = count (- x) l - count (- x) q) ->
  queue_loop ipo l q m = (length l, [], 0, false).
Proof.
  induction l as [|a l IH]; intros Hok q m Hm Hi H1 H2 H3.
  - cbn [queue_loop length]. assert (zlen q <= zlen []) as Lq by (apply submultiset_length; exact H1).
    destruct q; [|unfold zlen in Lq; cbn [length] in Lq; lia]. rewrite !count_nil in H2. repeat f_equal; lia.
  - cbn [queue_loop]. destruct (take_ply ipo a q m) as [q' m'] eqn:T.
    assert (G : 0 <= m' /\ (ipo = true -> m' = 0) /\ (forall x, count x q' <= count x l) /\
      count 45 q' + count (-45) q' + m' <= count 45 l + count (-45) l /\
      (ipo = true -> forall x, x <> 0 -> Z.abs x <> 90 -> count x l - count x q' = count (- x) l - count (- x) q')).
    { unfold take_ply in T. destruct (memb a q) eqn:Ma.
      - apply pair_equal_spec in T; destruct T as [<- <-].
        assert (Ha : In a q). { unfold memb in Ma. apply existsb_exists in Ma. destruct Ma as [b [Hb E]]. apply Z.eqb_eq in E; subst; exact Hb. }
        split; [lia|]. split; [exact Hi|].
        assert (C : forall x, count x (remove1 a q) = count x q - (if a =? x then 1 else 0)) by (intros x; rewrite remove1_count by exact Ha; rewrite Z.eqb_sym; reflexivity).
        split; [|split].
        + intros x. rewrite C. specialize (H1 x). rewrite ccons in H1. lia.
        + rewrite !C. rewrite !ccons in H2. lia.
        + intros I x N0 N90. rewrite !C. specialize (H3 I x N0 N90). rewrite !ccons in H3. lia.
      - assert (Na : count a q = 0).
        { unfold count. rewrite (proj1 (count_occ_not_In Z.eq_dec _ _)); [reflexivity|]. intros H. unfold memb in Ma.
          assert (existsb (Z.eqb a) q = true) by (apply existsb_exists; exists a; split; [exact H|apply Z.eqb_refl]). congruence. }
        assert (H1' : forall x, count x q <= count x l).
        { intros x. specialize (H1 x). rewrite ccons in H1. destruct (Z.eqb_spec a x) as [E|]; [|lia]. rewrite <- E, Na. apply count_nonneg. }
        apply pair_equal_spec in T; destruct T as [Tq Tm].
        destruct ipo; cbn [andb negb] in Tq, Tm; [|].
        + subst m'. rewrite (Hi eq_refl) in *. split; [lia|]. split; [reflexivity|].
          destruct ((a =? 0) || (a =? 90))%bool eqn:E0; cbn [negb] in Tq; subst q'.
          * split; [exact H1'|]. split; [pose proof (H1' 45); pose proof (H1' (-45)); lia|].
            intros I x N0 N90. specialize (H3 I x N0 N90). rewrite !ccons in H3.
            apply orb_true_iff in E0. rewrite !Z.eqb_eq in E0.
            replace (a =? x) with false in H3 by (symmetry; apply Z.eqb_neq; lia). replace (a =? - x) with false in H3 by (symmetry; apply Z.eqb_neq; lia). lia.
          * apply orb_false_iff in E0. rewrite !Z.eqb_neq in E0. destruct E0 as [E0 E90].
            assert (A90 : Z.abs a <> 90) by (inversion Hok; subst; unfold angle_ok in *; lia).
            assert (Key : count (- a) q + 1 <= count (- a) l).
            { specialize (H3 eq_refl a E0 A90). rewrite !ccons, Z.eqb_refl in H3. replace (a =? - a) with false in H3 by (symmetry; apply Z.eqb_neq; lia).
              pose proof (count_nonneg a l). lia. }
            assert (C : forall x, count x (q ++ [- a]) = count x q + (if - a =? x then 1 else 0)) by (intros x; rewrite count_app, ccons, count_nil; lia).
            assert (K1 : forall x, count x (q ++ [- a]) <= count x l).
            { intros x. rewrite C. destruct (Z.eqb_spec (- a) x) as [<-|]; [lia|]. specialize (H1' x); lia. }
            split; [exact K1|]. split; [pose proof (K1 45); pose proof (K1 (-45)); lia|].
            intros I x N0 N90. rewrite !C. specialize (H3 I x N0 N90). rewrite !ccons in H3.
            replace (- a =? - x) with (a =? x) by (destruct (Z.eqb_spec a x), (Z.eqb_spec (- a) (- x)); lia).
            replace (- a =? x) with (a =? - x) by (destruct (Z.eqb_spec a (- x)), (Z.eqb_spec (- a) x); lia). lia.
        + subst q'. split; [destruct ((a =? 45) || (a =? -45))%bool; lia|]. split; [discriminate|]. split; [exact H1'|]. split; [|discriminate].
          pose proof (H1' 45) as X; pose proof (H1' (-45)) as Y. rewrite !ccons in H2.
          destruct (Z.eqb_spec a 45) as [->|N1]; cbn [orb Z.eqb Pos.eqb] in *; [lia|].
          destruct (Z.eqb_spec a (-45)) as [->|N2]; cbn [orb Z.eqb Pos.eqb] in *; lia. }
    destruct G as (G1 & G2 & G3 & G4 & G5).
    pose proof (room_left q' l m' G3 G4) as RL. destruct (Z.ltb_spec (zlen l) (zlen q' + m')); [lia|].
    inversion Hok; subst. rewrite (IH ltac:(assumption) q' m' G1 G2 G3 G4 G5). reflexivity.
Qed.

Lemma adjust_le x y h : x <= h -> y <= 2 * h -> fst (adjust x y) <= h /\ snd (adjust x y) <= 2 * h.
Proof.
  intros Hx Hy. unfold adjust. cbn [fst snd].
  assert (Y : (if Z.odd y then Z.max (y + 1) (2 * x) else y) <= 2 * h).
  { destruct (Z.odd y) eqn:O; [|exact Hy]. rewrite Zodd_mod in O. apply Zeq_bool_eq in O. pose proof (Z.div_mod y 2 ltac:(lia)). lia. }
  split; [|exact Y]. apply Z.max_lub; [exact Hx|]. apply Z.div_le_upper_bound; lia.
Qed.

Lemma calc_mini_10_le c n h0 h90 h45 h135 : consistent c ->
  (sym c = true -> Nat.odd n = false) -> (ipo c = true -> h45 = h135) -> 0 <= h45 -> 0 <= h135 ->
  ceil_share (percent_0 c) n <= unit_of (sym c) * h0 -> ceil_share (percent_90 c) n <= unit_of (sym c) * h90 ->
  ceil_share (percent_45 c) n <= unit_of (sym c) * h45 -> ceil_share (percent_135 c) n <= unit_of (sym c) * h135 ->
  ceil_share (percent_45_135 c) n <= unit_of (sym c) * (h45 + h135) ->
  let m := calc_mini_10 c n in
  Qceiling (mini_0 m) <= h0 /\ Qceiling (mini_90 m) <= h90 /\ mini_45 m <= h45 /\ mini_135 m <= h135 /\
  (ipo c = false -> mini_45 m + mini_135 m + first_missing c m <= h45 + h135).
Proof.
  intros K Ev Hi P45 P135 A0 A90 A45 A135 Apm.
  unfold calc_mini_10, first_missing, unit_of in *.
  set (a0 := ceil_share (percent_0 c) n) in *. set (a90 := ceil_share (percent_90 c) n) in *.
  set (a45 := ceil_share (percent_45 c) n) in *. set (a135 := ceil_share (percent_135 c) n) in *.
  set (apm := ceil_share (percent_45_135 c) n) in *.
  clearbody a0 a90 a45 a135 apm. destruct (sym c) eqn:Es; [rewrite (Ev eq_refl)|]; destruct (ipo c) eqn:Ei.
  - specialize (Hi eq_refl). subst h135.
    destruct (adjust (Z.max a45 a135) apm) as [x y] eqn:E1.
    pose proof (adjust_le (Z.max a45 a135) apm (2 * h45) ltac:(lia) ltac:(lia)) as [X Y]. rewrite E1 in X, Y. cbn [fst snd] in X, Y.
    destruct (adjust (half_up x) (half_up y)) as [x2 y2] eqn:E2.
    pose proof (half_up_spec x). pose proof (half_up_spec y).
    pose proof (adjust_le (half_up x) (half_up y) h45 ltac:(lia) ltac:(lia)) as [X2 Y2]. rewrite E2 in X2, Y2. cbn [fst snd] in X2, Y2.
    cbn [mini_0 mini_90 mini_45 mini_135 mini_45_135]. rewrite !Qceiling_Z. pose proof (half_up_spec a0). pose proof (half_up_spec a90).
    split; [lia|]. split; [lia|]. split; [lia|]. split; [lia|discriminate].
  - cbn [mini_0 mini_90 mini_45 mini_135 mini_45_135]. rewrite !Qceiling_Z.
    pose proof (half_up_spec a0). pose proof (half_up_spec a90). pose proof (half_up_spec a45). pose proof (half_up_spec a135). pose proof (half_up_spec apm).
    split; [lia|]. split; [lia|]. split; [lia|]. split; [lia|]. intros _. destruct (rule_10_percent c && negb (Qeq_bool (percent_45_135 c) 0))%bool; lia.
  - specialize (Hi eq_refl). subst h135.
    destruct (adjust (Z.max a45 a135) apm) as [x y] eqn:E1.
    pose proof (adjust_le (Z.max a45 a135) apm h45 ltac:(lia) ltac:(lia)) as [X Y]. rewrite E1 in X, Y. cbn [fst snd] in X, Y.
    cbn [mini_0 mini_90 mini_45 mini_135 mini_45_135]. rewrite !Qceiling_Z.
    split; [lia|]. split; [lia|]. split; [lia|]. split; [lia|discriminate].
  - cbn [mini_0 mini_90 mini_45 mini_135 mini_45_135]. rewrite !Qceiling_Z.
    split; [lia|]. split; [lia|]. split; [lia|]. split; [lia|]. intros _. destruct (rule_10_percent c && negb (Qeq_bool (percent_45_135 c) 0))%bool; lia.
Qed.

Lemma share_le p a t : t <> [] -> (p <= share_of a t + 0)%Q -> ceil_share p (length t) <= count a t.
Proof.
  intros Nt H. rewrite Qplus_0_r in H. unfold share_of in H. change (Z.of_nat (count_occ Z.eq_dec t a)) with (count a t) in H.
  assert (P : (0 < inject_Z (Z.of_nat (length t)))%Q).
  { change 0%Q with (inject_Z 0). rewrite <- Zlt_Qlt. destruct t; [congruence|cbn [length]; lia]. }
  unfold ceil_share. rewrite <- (Qceiling_Z (count a t)). apply Qceiling_resp_le.
  apply (Qmult_le_compat_r _ _ (inject_Z (Z.of_nat (length t)))) in H; [|apply Qlt_le_weak, P].
  eapply Qle_trans; [exact H|]. apply Qle_lteq. right. field. intros E; rewrite E in P; apply Qlt_irrefl in P; exact P.
Qed.
Lemma share_le2 p a b t : t <> [] -> (p <= share_of a t + share_of b t + 0)%Q -> ceil_share p (length t) <= count a t + count b t.
Proof.
  intros Nt H. rewrite Qplus_0_r in H. unfold share_of in H.
  change (Z.of_nat (count_occ Z.eq_dec t a)) with (count a t) in H. change (Z.of_nat (count_occ Z.eq_dec t b)) with (count b t) in H.
  assert (P : (0 < inject_Z (Z.of_nat (length t)))%Q).
  { change 0%Q with (inject_Z 0). rewrite <- Zlt_Qlt. destruct t; [congruence|cbn [length]; lia]. }
  unfold ceil_share. rewrite <- (Qceiling_Z (count a t + count b t)). apply Qceiling_resp_le.
  apply (Qmult_le_compat_r _ _ (inject_Z (Z.of_nat (length t)))) in H; [|apply Qlt_le_weak, P].
  eapply Qle_trans; [exact H|]. apply Qle_lteq. right. rewrite inject_Z_plus. field. intros E; rewrite E in P; apply Qlt_irrefl in P; exact P.
Qed.

Lemma conforming_2 a c ss :
  mk_cons a = Ok c ->
  ss <> [] -> Forall angle_ok ss -> (sym c = true -> ss = rev ss /\ Nat.even (length ss) = true) ->
  (ipo c = true -> balanced ss) -> ten_spec 0 false false c ss ->
  repair_10_bal_2 c ss (calc_mini_10 c (length ss)) = (ss, []).
Proof.
  intros MK Ne Ok0 Sy Ba Ten. pose proof (mk_cons_consistent _ _ MK) as K.
  unfold repair_10_bal_2. destruct (negb (ipo c) && negb (rule_10_percent c))%bool eqn:Off; [reflexivity|].
  assert (Sm : set_middle (sym c) ss = ss).
  { unfold set_middle. destruct (sym c) eqn:Es; [|reflexivity]. destruct (Sy eq_refl) as [_ E]. rewrite <- Nat.negb_even, E. reflexivity. }
  cbv zeta. rewrite Sm. set (m := calc_mini_10 c (length ss)). set (inds := ind_plies (sym c) (length ss)).
  set (l := map (fun i => nth i ss 0) inds).
  assert (Sl : (slots (sym c) (length ss) <= length ss)%nat).
  { unfold slots; destruct (sym c); [apply Nat.div_le_upper_bound|]; lia. }
  assert (Cl : forall x, count x ss = unit_of (sym c) * count x l).
  { intros x. assert (count x l = count x (firstn (slots (sym c) (length ss)) ss)) as ->.
    { rewrite <- map_nth_seq by exact Sl. apply count_perm. apply Permutation_map, ind_plies_perm. }
    unfold unit_of, slots. destruct (sym c) eqn:Es.
    - destruct (Sy eq_refl) as [P E]. rewrite (count_palindrome ss x P) at 1. rewrite <- Nat.negb_even, E. cbn [negb]. lia.
    - rewrite firstn_all. lia. }
  assert (U : 0 < unit_of (sym c)) by (unfold unit_of; destruct (sym c); lia).
  assert (Bl : ipo c = true -> forall x, x <> 0 -> Z.abs x <> 90 -> count x l = count (- x) l).
  { intros Hi x N0 N90. specialize (Ba Hi x N0 N90). assert (count x ss = count (- x) ss) as E by (unfold count; lia).
    rewrite !Cl in E. nia. }
  destruct Ten as (T1 & _ & T2 & _ & T3). destruct (T1 eq_refl) as [T0 T90]. destruct (T2 eq_refl) as [T45 T135].
  apply share_le in T0; [|exact Ne]. apply share_le in T90; [|exact Ne]. apply share_le in T45; [|exact Ne]. apply share_le in T135; [|exact Ne].
  apply share_le2 in T3; [|exact Ne]. rewrite !Cl in T0, T90, T45, T135, T3.
  destruct (calc_mini_10_le c (length ss) (count 0 l) (count 90 l) (count 45 l) (count (-45) l) K) as (M0 & M90 & M45 & M135 & Mm).
  1:{ intros Es. destruct (Sy Es) as [_ E]. rewrite <- Nat.negb_even, E. reflexivity. }
  1:{ intros Hi. exact (Bl Hi 45 ltac:(lia) ltac:(lia)). }
  1,2: apply count_nonneg.
  1-4: assumption.
  1: rewrite Z.mul_add_distr_l; rewrite <- (Cl (-45)); exact T3.
  fold m in M0, M90, M45, M135, Mm.
  pose proof (calc_mini_10_spec c (length ss) K) as (Q0 & Q90 & Q45 & Q135 & Qpm & Meq & F0 & Fi & _). fold m in Q0, Q90, Q45, Q135, Qpm, Meq, F0, Fi.
  assert (FC : forall x, count x (first_queue c m) <= count x l).
  { intros x. rewrite first_queue_count by assumption. pose proof (count_nonneg x l). destruct (rule_10_percent c); [|assumption].
    destruct (Z.eqb_spec x 0) as [->|]; cbn [Z.eqb Pos.eqb]; [lia|]. destruct (Z.eqb_spec x 90) as [->|]; cbn [Z.eqb Pos.eqb]; [lia|].
    destruct (Z.eqb_spec x 45) as [->|]; cbn [Z.eqb Pos.eqb]; [lia|]. destruct (Z.eqb_spec x (-45)) as [->|]; lia. }
  assert (Okl : Forall angle_ok l).
  { rewrite Forall_forall in *. intros x Hx. apply in_map_iff in Hx. destruct Hx as [i [<- Hi]]. apply ind_plies_in in Hi. apply Ok0, nth_In. lia. }
  rewrite (loop_keeps (ipo c) l Okl (first_queue c m) (first_missing c m) F0 Fi FC).
  - rewrite Bool.andb_false_l. unfold l. rewrite map_length, skipn_all. reflexivity.
  - destruct (ipo c) eqn:Ei; [rewrite (Fi eq_refl); pose proof (FC 45); pose proof (FC (-45)); lia|].
    rewrite !first_queue_count by assumption. destruct (rule_10_percent c) eqn:Er; [cbn [Z.eqb Pos.eqb]; specialize (Mm eq_refl); lia|].
    cbn in Off. discriminate.
  - intros Hi x N0 N90. rewrite (Bl Hi x N0 N90). f_equal. rewrite !first_queue_count by assumption. destruct (rule_10_percent c); [|reflexivity].
    rewrite (Meq Hi).
    replace (x =? 90) with false by (symmetry; apply Z.eqb_neq; lia). replace (- x =? 90) with false by (symmetry; apply Z.eqb_neq; lia).
    replace (x =? 0) with false by (symmetry; apply Z.eqb_neq; lia). replace (- x =? 0) with false by (symmetry; apply Z.eqb_neq; lia).
    replace (- x =? 45) with (x =? -45) by (destruct (Z.eqb_spec x (-45)), (Z.eqb_spec (- x) 45); lia).
    replace (- x =? -45) with (x =? 45) by (destruct (Z.eqb_spec x 45), (Z.eqb_spec (- x) (-45)); lia). lia.
Qed.

Theorem C52_conforming_unchanged_partial a c ss :
  mk_cons a = Ok c -> (rule_10_percent c && rule_10_Abdalla c)%bool = false ->
  ss <> [] -> Forall angle_ok ss -> (sym c = true -> ss = rev ss /\ Nat.even (length ss) = true) ->
  (ipo c = true -> balanced ss) -> ten_spec 0 false false c ss ->
  repair_10_bal c ss (calc_mini_10 c (length ss)) = (ss, []).
Proof. intros MK _. unfold repair_10_bal. apply (conforming_2 a c ss MK). Qed.

(* ------------------------------------------------------------------ *)
Definition unbalanced20 : list Z := let h := [45; -45; 0; 45; 0; 30; 90; -45; 60; 45] in h ++ rev h.

(** the hypotheses of C34 are met by a laminate that is neither balanced nor feasible; the
    last two plies of the half become unknown and are replaced by -30 and 0 *)
Example C34_example : exists c,
  mk_cons args_full = Ok c /\ (rule_10_percent c && rule_10_Abdalla c)%bool = false /\ ipo c = true /\ sym c = true /\
  Forall angle_ok unbalanced20 /\ unbalanced20 = rev unbalanced20 /\ room c (length unbalanced20) /\ ~ balanced unbalanced20 /\
  repair_10_bal c unbalanced20 (calc_mini_10 c (length unbalanced20)) =
    ([45; -45; 0; 45; 0; 30; 90; -45; 666; 666; 666; 666; -45; 90; 30; 0; 45; 0; -45; 45], [-30; 0]) /\
  exists t, fills true [45; -45; 0; 45; 0; 30; 90; -45; 666; 666; 666; 666; -45; 90; 30; 0; 45; 0; -45; 45] [-30; 0] t.
Proof.
  destruct (mk_cons args_full) as [c|] eqn:E; [|vm_compute in E; discriminate]. exists c.
  assert (Fo : Forall angle_ok unbalanced20) by (unfold unbalanced20; cbn; repeat constructor; unfold angle_ok; lia).
  assert (Rv : unbalanced20 = rev unbalanced20) by reflexivity.
  vm_compute in E. injection E as <-.
  split; [reflexivity|]. split; [reflexivity|]. split; [reflexivity|]. split; [reflexivity|]. split; [exact Fo|]. split; [exact Rv|].
  split; [vm_compute; discriminate|]. split; [intros B; specialize (B 30 ltac:(lia) ltac:(lia)); vm_compute in B; discriminate|].
  split; [vm_compute; reflexivity|].
  apply fills_exists; [reflexivity|vm_compute; reflexivity].
Qed.

(** a symmetric laminate of seven plies that is balanced and has 10% of every direction: 2/7
    at 0, 1/7 at 90, 2/7 at +45 and at -45 *)
Definition seven : list Z := [45; -45; 0; 90; 0; -45; 45].
Lemma seven_conforms c : mk_cons args_full = Ok c ->
  sym c = true /\ ipo c = true /\ (rule_10_percent c && rule_10_Abdalla c)%bool = false /\ ten_spec 0 false false c seven.
Proof.
  intros E. vm_compute in E. injection E as <-. split; [reflexivity|]. split; [reflexivity|]. split; [reflexivity|].
  split; [intros _; split; vm_compute; discriminate|]. split; [discriminate|].
  split; [intros _; split; vm_compute; discriminate|]. split; [discriminate|]. vm_compute; discriminate.
Qed.
Lemma seven_balanced : balanced seven.
Proof.
  intros a N0 N90. unfold seven.
  destruct (Z.eq_dec a 45) as [->|N1]; [reflexivity|]. destruct (Z.eq_dec a (-45)) as [->|N2]; [reflexivity|].
  rewrite !(proj1 (count_occ_not_In Z.eq_dec _ _)); [reflexivity| |]; cbn [In]; lia.
Qed.

(** C52 fails for symmetric laminates with a middle ply, whose angle is not counted: the
    laminate of seven plies is wiped out *)
Theorem C52_middle_ply_refuted :
  ~ (forall a c ss, mk_cons a = Ok c -> (rule_10_percent c && rule_10_Abdalla c)%bool = false ->
     ss <> [] -> Forall angle_ok ss -> (sym c = true -> ss = rev ss) ->
     (ipo c = true -> balanced ss) -> ten_spec 0 false false c ss ->
     repair_10_bal c ss (calc_mini_10 c (length ss)) = (ss, [])).
Proof.
  intros H. destruct (mk_cons args_full) as [c|] eqn:E; [|vm_compute in E; discriminate].
  destruct (seven_conforms c E) as (_ & _ & Ab & T).
  assert (F : Forall angle_ok seven) by (unfold seven; repeat constructor; unfold angle_ok; lia).
  specialize (H args_full c seven E Ab ltac:(discriminate) F ltac:(reflexivity) (fun _ => seven_balanced) T).
  vm_compute in E. injection E as <-. vm_compute in H. discriminate.
Qed.

(** and the room asked for in C34 cannot be dropped, even for laminates that conform: five
    plies are queued for the three unknown plies of the half *)
Theorem C34_without_room_refuted :
  ~ (forall a c ss s' q, mk_cons a = Ok c -> (rule_10_percent c && rule_10_Abdalla c)%bool = false ->
     ss <> [] -> Forall angle_ok ss -> (sym c = true -> ss = rev ss) ->
     (ipo c = true -> balanced ss) -> ten_spec 0 false false c ss ->
     repair_10_bal c ss (calc_mini_10 c (length ss)) = (s', q) ->
     Z.of_nat (length q) = count 666 (firstn (if sym c then length ss / 2 else length ss) s')).
Proof.
  intros H. destruct (mk_cons args_full) as [c|] eqn:E; [|vm_compute in E; discriminate].
  destruct (seven_conforms c E) as (_ & _ & Ab & T).
  assert (F : Forall angle_ok seven) by (unfold seven; repeat constructor; unfold angle_ok; lia).
  destruct (repair_10_bal c seven (calc_mini_10 c (length seven))) as [s' q] eqn:R.
  specialize (H args_full c seven s' q E Ab ltac:(discriminate) F ltac:(reflexivity) (fun _ => seven_balanced) T R).
  vm_compute in E. injection E as <-. vm_compute in R. injection R as <- <-. vm_compute in H. discriminate.
Qed.

Definition twelve : list Z := [45; -45; 0; 90; 45; -45; -45; 45; 90; 0; -45; 45].
Example C52_example : exists c, mk_cons args_full = Ok c /\ (rule_10_percent c && rule_10_Abdalla c)%bool = false /\
  Forall angle_ok twelve /\ (sym c = true /\ twelve = rev twelve /\ Nat.even (length twelve) = true) /\
  (ipo c = true /\ balanced twelve) /\ ten_spec 0 false false c twelve.
Proof.
  destruct (mk_cons args_full) as [c|] eqn:E; [|vm_compute in E; discriminate]. exists c.
  split; [reflexivity|]. vm_compute in E. injection E as <-.
  split; [reflexivity|]. split; [unfold twelve; repeat constructor; unfold angle_ok; lia|].
  split; [split; [reflexivity|split; reflexivity]|]. split.
  - split; [reflexivity|]. intros a N0 N90. unfold twelve.
    destruct (Z.eq_dec a 45) as [->|N1]; [reflexivity|]. destruct (Z.eq_dec a (-45)) as [->|N2]; [reflexivity|].
    rewrite !(proj1 (count_occ_not_In Z.eq_dec _ _)); [reflexivity| |]; cbn [In]; lia.
  - split; [intros _; split; vm_compute; discriminate|]. split; [discriminate|].
    split; [intros _; split; vm_compute; discriminate|]. split; [discriminate|]. vm_compute; discriminate.
Qed.
