(* MembraneProofs.v - proofs about Membrane.v *)
From Coq Require Import Lqa Qround Sorted.
From Verif Require Import Base Uniq Constraints ConstraintsProofs Divers DiversProofs Divide DivideProofs Moments MomentsProofs
  Search SearchProofs Repair10 Repair10Proofs RepairDiso RepairDisoProofs Membrane.
Local Open Scope Z_scope.

Lemma nodup_app2 {A} (l m : list A) : NoDup l -> NoDup m -> (forall x, In x l -> ~ In x m) -> NoDup (l ++ m).
Proof.
  induction l as [|a l IH]; intros H1 H2 H3; cbn; auto. inversion H1; subst. constructor.
  - rewrite in_app_iff. intros [X|X]; [auto|apply (H3 a); [now left|auto]].
  - apply IH; auto. intros x Hx; apply H3; now right.
Qed.
(* ------------------------------------------------------------------ *)
(** ** The indices that may change *)
Lemma ind_plies_A_spec c p_A n : let l := ind_plies_A c p_A n in NoDup l /\
  forall i, In i l -> (Nat.max (protected c) (ind_min p_A n) <= i)%nat /\ (i + Nat.max (protected c) (ind_min p_A n) < n)%nat /\ (sym c = true -> (i < n / 2)%nat).
Proof.
  intros l. unfold l, ind_plies_A. clear l.
  pose proof (Nat.div_mod n 2 ltac:(lia)) as D. pose proof (Nat.mod_upper_bound n 2 ltac:(lia)) as D2.
  set (h := (n / 2)%nat) in *. set (p := protected c). set (im := ind_min p_A n).
  set (d := Nat.max p im).
  assert (U : forall i, In i (rev (seq d (h - d))) <-> (d <= i < h)%nat).
  { intros i; rewrite <- in_rev, in_seq; lia. }
  destruct (sym c).
  - split; [apply NoDup_rev, seq_NoDup|]. intros i Hi; apply U in Hi. lia.
  - replace (Nat.min (n - im) (n - p)) with (n - d)%nat by lia.
    assert (P : Permutation (interleave (seq h (n - d - h)) (rev (seq d (h - d)))) (seq h (n - d - h) ++ rev (seq d (h - d)))).
    { apply interleave_perm. rewrite rev_length, !seq_length. lia. }
    split.
    + apply (Permutation_NoDup (Permutation_sym P)).
      apply nodup_app2; [apply seq_NoDup|apply NoDup_rev, seq_NoDup|].
      intros i Hi Hj. apply in_seq in Hi. apply U in Hj. lia.
    + intros i Hi. apply (Permutation_in _ P) in Hi. apply in_app_or in Hi. destruct Hi as [Hi|Hi]; [apply in_seq in Hi|apply U in Hi]; split; try lia; split; try lia; discriminate.
Qed.

(* ------------------------------------------------------------------ *)
(** ** Sums over plies *)
Lemma sumQ_perm (l m : list Q) : Permutation l m -> (sumQ l == sumQ m)%Q.
Proof. induction 1; unfold sumQ in *; cbn; try lra. Qed.
Lemma vsum_perm cs l m i : Permutation l m -> (vsum cs l i == vsum cs m i)%Q.
Proof. intros P; unfold vsum; apply sumQ_perm, Permutation_map, P. Qed.
Lemma vsum_cons cs a l i : vsum cs (a :: l) i = (cs a i + vsum cs l i)%Q.
Proof. reflexivity. Qed.
Lemma objective_ext coeffs target x y : (forall i, x i == y i)%Q -> (objective coeffs target x == objective coeffs target y)%Q.
Proof. intros H; unfold objective, sumQ; cbn. rewrite !H. reflexivity. Qed.

(* ------------------------------------------------------------------ *)
(** ** The loop *)
Lemma sorted_snoc {A} (R : A -> A -> Prop) l x y : Sorted R (l ++ [x]) -> R x y -> Sorted R (l ++ [x; y]).
Proof.
  induction l as [|a l IH]; cbn [app]; intros H Hr.
  - constructor; [constructor; constructor|constructor; exact Hr].
  - apply Sorted_inv in H. destruct H as [H1 H2]. constructor; [auto|].
    destruct l; cbn [app] in *; inversion H2; constructor; auto.
Qed.

Section Refine.
Variable m : nat.
Variable opts : vec -> list Q.
Variable step : mstate -> Q -> nat -> nat -> result verdict.
Variable P : mstate -> Prop.
Variable R : mstate -> mstate -> Prop.   (* older, newer *)
Hypothesis Hlen : forall x, length (opts x) = (m * m)%nat.
Hypothesis Hdiag : forall x i, (i < m)%nat -> nth (i * m + i) (opts x) 0%Q = e10.
Hypothesis Hstep : forall st v i j st', P st -> (i < m)%nat -> (j < m)%nat -> i <> j ->
  v = nth (i * m + j) (opts (m_lp st)) 0%Q -> (v < e10)%Q -> step st v i j = Ok (Accept st') -> P st' /\ m_obj st' = v /\ R st st'.

Definition table (st : mstate) (tab : list Q) : Prop :=
  length tab = (m * m)%nat /\ forall k, (k < m * m)%nat -> nth k tab 0%Q = e10 \/ nth k tab 0%Q = nth k (opts (m_lp st)) 0%Q.
Lemma table_0 st : table st (opts (m_lp st)).
Proof. split; auto. Qed.
Lemma table_upd st tab k : table st tab -> table st (upd k e10 tab).
Proof.
  intros [L H]; split; [rewrite upd_length; exact L|]. intros k' Hk. rewrite nth_upd.
  destruct (_ && _)%bool; auto.
Qed.

Lemma entry st tab k : table st tab -> (k < m * m)%nat -> (nth k tab 0 < e10)%Q ->
  (k / m < m)%nat /\ (k mod m < m)%nat /\ (k / m)%nat <> (k mod m)%nat /\ nth k tab 0%Q = nth (k / m * m + k mod m) (opts (m_lp st)) 0%Q.
Proof.
  intros [L H] Hk V. assert (Hm : (m <> 0)%nat) by nia.
  assert (D : (k = k / m * m + k mod m)%nat) by (rewrite Nat.mul_comm; apply Nat.div_mod; exact Hm).
  assert (D1 : (k / m < m)%nat) by (apply Nat.div_lt_upper_bound; auto).
  split; [exact D1|]. split; [apply Nat.mod_upper_bound; exact Hm|].
  assert (E : nth k tab 0%Q = nth k (opts (m_lp st)) 0%Q). { destruct (H k Hk) as [E|E]; [|exact E]. rewrite E in V. exfalso; revert V; unfold e10; lra. }
  rewrite <- D. split; [|exact E].
  intros X. pose proof (Hdiag (m_lp st) (k / m) D1) as G.
  replace (k / m * m + k / m)%nat with k in G by lia. rewrite E, G in V. revert V; unfold e10; lra.
Qed.

Definition falls (new old : mstate) : Prop := R old new /\ (m_obj new + em20 < m_obj old)%Q.

Lemma refine_ok fuel : forall tab st acc r acc', P st -> (m_obj st < e10)%Q -> table st tab ->
  refine m opts step fuel tab st acc = Ok (r, acc') ->
  exists news, acc' = news ++ acc /\ r = hd st news /\ Forall P news /\ Sorted falls (news ++ [st]).
Proof.
  induction fuel as [|fuel IH]; intros tab st acc r acc' HP Ho HT E; cbn [refine] in E; [discriminate|].
  destruct (argmin tab) as [k|] eqn:Ek; cbn [bind] in E; [|discriminate].
  destruct (Qltb (nth k tab 0%Q + em20) (m_obj st) && Qltb em10 (m_obj st))%bool eqn:G.
  2:{ injection E as <- <-. exists []. repeat split; auto. cbn. repeat constructor. }
  apply andb_true_iff in G; destruct G as [G _]. apply Qltb_true in G.
  assert (Hne : tab <> []) by (intros ->; discriminate Ek).
  destruct (argmin_ok tab Hne) as [k' [Ek' [Hk _]]]. rewrite Ek in Ek'; injection Ek' as <-.
  assert (V : (nth k tab 0 < e10)%Q) by (revert G Ho; unfold em20; lra).
  rewrite (proj1 HT) in Hk. destruct (entry st tab k HT Hk V) as [I1 [I2 [I3 I4]]].
  destruct (step st (nth k tab 0%Q) (k / m) (k mod m)) as [[|i' j'|st']|] eqn:Es; cbn [bind] in E; [| | |discriminate].
  - apply IH in E; auto. apply table_upd, HT.
  - destruct (_ && _)%bool in E; [|discriminate]. apply IH in E; auto. apply table_upd, HT.
  - destruct (Hstep _ _ _ _ _ HP I1 I2 I3 I4 V Es) as [P' [O' R']].
    assert (F : falls st' st) by (split; [exact R'|rewrite O'; exact G]).
    destruct (Qltb (m_obj st') em10).
    + injection E as <- <-. exists [st']. split; [reflexivity|]. split; [reflexivity|]. split; [auto|]. cbn. constructor; [repeat constructor|constructor; exact F].
    + apply IH in E; auto; [|rewrite O'; exact V|apply table_0].
      destruct E as [news [-> [-> [F1 F2]]]]. exists (news ++ [st']). rewrite <- app_assoc. split; [reflexivity|].
      split; [destruct news; reflexivity|]. split; [apply Forall_app; auto|]. rewrite <- app_assoc. apply sorted_snoc; auto.
Qed.

(** it stops and raises nothing when no step does *)
Hypothesis Hpos : forall st, P st -> (0 <= m_obj st)%Q.
Hypothesis Htotal : forall st v i j, P st -> (i < m)%nat -> (j < m)%nat -> i <> j ->
  v = nth (i * m + j) (opts (m_lp st)) 0%Q -> (v < e10)%Q ->
  step st v i j = Ok Refuse \/ exists st', step st v i j = Ok (Accept st').
Hypothesis Hm : (0 < m)%nat.

Lemma below_upd tab k : (k < length tab)%nat -> (nth k tab 0 < e10)%Q ->
  (countb (fun v => Qltb v e10) (upd k e10 tab) < countb (fun v => Qltb v e10) tab)%nat.
Proof.
  revert k; induction tab as [|x tab IH]; intros [|k] Hk V; cbn in Hk; try lia; cbn [upd nth] in *; rewrite !countb_cons.
  - apply Qltb_true in V. rewrite V. cbn. lia.
  - specialize (IH k ltac:(lia) V). lia.
Qed.

Lemma refine_stops (N : nat) : forall st, P st -> (m_obj st < e10)%Q -> (m_obj st < inject_Z (Z.of_nat N) * em20)%Q ->
  forall w tab, table st tab -> (countb (fun v => Qltb v e10) tab < w)%nat -> forall acc,
  exists fuel r, refine m opts step fuel tab st acc = Ok r.
Proof.
  induction N as [|N IHN]; intros st HP Ho Hb.
  - exfalso. specialize (Hpos st HP). change (inject_Z (Z.of_nat 0)) with 0%Q in Hb. rewrite Qmult_0_l in Hb. lra.
  - induction w as [|w IHw]; intros tab HT Hw acc; [lia|].
    assert (Hne : tab <> []) by (intros ->; destruct HT as [L _]; cbn in L; nia).
    destruct (argmin_ok tab Hne) as [k [Ek [Hk _]]].
    destruct (Qltb (nth k tab 0%Q + em20) (m_obj st) && Qltb em10 (m_obj st))%bool eqn:G.
    2:{ exists 1%nat, (st, acc). cbn [refine]. rewrite Ek; cbn [bind]. rewrite G. reflexivity. }
    pose proof G as G0. apply andb_true_iff in G; destruct G as [G _]. apply Qltb_true in G.
    assert (V : (nth k tab 0 < e10)%Q) by (revert G Ho; unfold em20; lra).
    pose proof (below_upd tab k Hk V) as Bl.
    rewrite (proj1 HT) in Hk. destruct (entry st tab k HT Hk V) as [I1 [I2 [I3 I4]]].
    destruct (Htotal _ _ _ _ HP I1 I2 I3 I4 V) as [Es|[st' Es]].
    + destruct (IHw (upd k e10 tab) (table_upd _ _ k HT) ltac:(lia) acc) as [f [r E]].
      exists (S f), r. cbn [refine]. rewrite Ek; cbn [bind]. rewrite G0, Es; cbn [bind]. exact E.
    + destruct (Hstep _ _ _ _ _ HP I1 I2 I3 I4 V Es) as [P' [O' R']].
      destruct (Qltb (m_obj st') em10) eqn:Q.
      * exists 1%nat, (st', st' :: acc). cbn [refine]. rewrite Ek; cbn [bind]. rewrite G0, Es; cbn [bind]. rewrite Q. reflexivity.
      * destruct (IHN st' P' ltac:(rewrite O'; exact V)) with (w := Datatypes.S (countb (fun v => Qltb v e10) (opts (m_lp st')))) (tab := opts (m_lp st')) (acc := st' :: acc) as [f [r E]].
        { rewrite O'. replace (Z.of_nat (Datatypes.S N)) with (Z.of_nat N + 1)%Z in Hb by lia. rewrite inject_Z_plus in Hb. change (inject_Z 1) with 1%Q in Hb. lra. }
        { apply table_0. } { lia. }
        exists (S f), r. cbn [refine]. rewrite Ek; cbn [bind]. rewrite G0, Es; cbn [bind]. rewrite Q. exact E.
Qed.

Lemma refine_total st acc : P st -> (m_obj st < e10)%Q -> exists fuel r, refine m opts step fuel (opts (m_lp st)) st acc = Ok r.
Proof.
  intros HP Ho. pose proof (Hpos st HP) as H0.
  set (N := Datatypes.S (Z.to_nat (Qfloor (m_obj st / em20)))).
  apply (refine_stops N st HP Ho) with (w := Datatypes.S (countb (fun v => Qltb v e10) (opts (m_lp st)))); [|apply table_0|lia].
  pose proof (Qlt_floor (m_obj st / em20)) as F.
  assert (Fp : (0 <= m_obj st / em20)%Q) by (unfold Qdiv; apply Qmult_le_0_compat; [exact H0|unfold em20; discriminate]).
  assert (0 <= Qfloor (m_obj st / em20)) by (change 0 with (Qfloor 0); apply Qfloor_resp_le; exact Fp).
  unfold N. rewrite Nat2Z.inj_succ, Z2Nat.id by assumption. fold (Z.succ (Qfloor (m_obj st / em20))).
  apply (Qmult_lt_r _ _ em20) in F; [|reflexivity]. unfold Qdiv in F. rewrite <- Qmult_assoc in F.
  rewrite (Qmult_comm (/ em20)), Qmult_inv_r, Qmult_1_r in F by discriminate. exact F.
Qed.
End Refine.

(* ------------------------------------------------------------------ *)
(** ** The table of options *)
Lemma flat_nth {B} (f : nat -> nat -> B) d m i j : forall n s, (i < n)%nat -> (j < m)%nat ->
  nth (i * m + j) (flat_map (fun a => map (f a) (seq 0 m)) (seq s n)) d = f (s + i)%nat j.
Proof.
  revert j. induction i as [|i IH]; intros j [|n] s Hi Hj; try lia; cbn [seq flat_map].
  - rewrite app_nth1 by (rewrite map_length, seq_length; lia). rewrite nth_indep with (d' := f s 0%nat) by (rewrite map_length, seq_length; lia).
    rewrite (map_nth (f s)). rewrite seq_nth by lia. f_equal; lia.
  - rewrite app_nth2 by (rewrite map_length, seq_length; nia). rewrite map_length, seq_length.
    replace (Datatypes.S i * m + j - m)%nat with (i * m + j)%nat by nia. rewrite IH by lia. f_equal; lia.
Qed.
Lemma options_length coeffs target sh x : length (options coeffs target sh x) = (length sh * length sh)%nat.
Proof.
  assert (G : forall (g : nat -> nat -> Q) m n s, length (flat_map (fun a => map (g a) (seq 0 m)) (seq s n)) = (n * m)%nat).
  { intros g m n; induction n as [|n IH]; intros s; cbn [seq flat_map]; [reflexivity|]. rewrite app_length, map_length, seq_length, IH. lia. }
  unfold options. rewrite G. lia.
Qed.
Lemma options_nth coeffs target sh x i j : (i < length sh)%nat -> (j < length sh)%nat ->
  nth (i * length sh + j) (options coeffs target sh x) 0%Q =
  if Nat.eqb i j then e10 else objective coeffs target (vadd (vsub x (vnth sh i)) (vnth sh j)).
Proof. intros Hi Hj. unfold options. rewrite flat_nth by assumption. reflexivity. Qed.
Lemma options_diag coeffs target sh x i : (i < length sh)%nat -> nth (i * length sh + i) (options coeffs target sh x) 0%Q = e10.
Proof. intros H. rewrite options_nth by assumption. rewrite Nat.eqb_refl. reflexivity. Qed.
Lemma objective_pos coeffs target x : (forall i, (i < 4)%nat -> 0 <= coeffs i)%Q -> (0 <= objective coeffs target x)%Q.
Proof.
  intros H. unfold objective, sumQ. cbn.
  assert (S4 : forall i, (i < 4)%nat -> (0 <= coeffs i * ((x i - target i) * (x i - target i)))%Q).
  { intros i Hi. apply Qmult_le_0_compat; [auto|]. destruct (Qlt_le_dec (x i - target i) 0); nra. }
  pose proof (S4 0%nat ltac:(lia)). pose proof (S4 1%nat ltac:(lia)). pose proof (S4 2%nat ltac:(lia)). pose proof (S4 3%nat ltac:(lia)). lra.
Qed.

(* ------------------------------------------------------------------ *)
Section State.
Variable c : cons.
Variable cos_sin : Z -> nat -> Q.
Variables coeffs target : vec.
Variable p_A : Q.
Notation set := (set_of_angles c).
Notation nosym := (sym c = false).

Hypothesis Hset : NoDup set.
Hypothesis Hok : forall a, In a set -> -90 < a <= 90.

Variable ss0 : list Z.
Variable q0 : list Z.
Notation np := (length ss0).
Notation mods := (ind_plies_A c p_A np).
Hypothesis Hn : Z.of_nat np <= 6666.
Hypothesis Hpal : sym c = true -> ss0 = rev ss0.

Lemma lookup_ok a k : a <> -90 -> lookup c a = Ok k <-> nth_error set k = Some a.
Proof.
  intros Na. unfold lookup, ind_angle. replace (a =? -90) with false by (symmetry; apply Z.eqb_neq; exact Na). cbn [andb].
  destruct (index_of a set) as [j|] eqn:E.
  - apply index_of_some in E as E'. destruct E' as [_ [E1 _]]. split.
    + intros X; injection X as <-. exact E1.
    + intros X. f_equal. apply (proj1 (NoDup_nth_error set) Hset); [apply nth_error_Some; rewrite E1; discriminate|rewrite E1, X; reflexivity].
  - apply index_of_none in E. split; [discriminate|]. intros X; exfalso; apply E. eapply nth_error_In; eauto.
Qed.

(** [x] is the index of a ply that may change *)
Definition is_mod (x : Z) : bool := existsb (fun i => Z.of_nat i =? x) mods.
Lemma is_mod_spec x : is_mod x = true <-> exists i, In i mods /\ x = Z.of_nat i.
Proof.
  unfold is_mod; rewrite existsb_exists. split; intros [i [H E]]; exists i; split; auto; [apply Z.eqb_eq in E|apply Z.eqb_eq]; lia.
Qed.
Lemma is_mod_6666 : is_mod 6666 = false.
Proof.
  destruct (is_mod 6666) eqn:E; auto. apply is_mod_spec in E. destruct E as [i [Hi E]].
  destruct (ind_plies_A_spec c p_A np) as [_ M]. specialize (M i Hi). lia.
Qed.

(** the indices held back, with their angles *)
Definition pcount (x a : Z) (pend : list (Z * Z)) : Z := Z.of_nat (countb (fun p => (fst p =? x) && (snd p =? a))%bool pend).
Lemma pcount_cons x a y b pend : pcount x a ((y, b) :: pend) = (if (y =? x) && (b =? a) then 1 else 0) + pcount x a pend.
Proof. unfold pcount; rewrite countb_cons; cbn [fst snd]. destruct ((y =? x) && (b =? a))%bool; lia. Qed.
Lemma pcount_nonneg x a pend : 0 <= pcount x a pend.
Proof. unfold pcount; lia. Qed.

Definition listed (ss q : list Z) (L : list (list Z)) (pend : list (Z * Z)) : Prop :=
  length L = length set /\
  forall k a, nth_error set k = Some a -> forall x,
    count x (nth k L []) + pcount x a pend =
    (if x =? 6666 then count a q else 0) + (if (is_mod x && (nth (Z.to_nat x) ss 0 =? a))%bool then 1 else 0).

(** what never changes *)
Definition like (ss q : list Z) : Prop :=
  length ss = np /\ length q = length q0 /\
  (forall i, (i < np)%nat -> (nth i ss 0 = 666 <-> nth i ss0 0 = 666)) /\
  (forall i, (i < np)%nat -> ~ In i mods -> (sym c = true -> ~ In (np - i - 1)%nat mods) -> nth i ss 0 = nth i ss0 0) /\
  (sym c = true -> ss = rev ss) /\
  (sym c = true -> Nat.odd np = true -> nth (np / 2) ss 0 = nth (np / 2) ss0 0) /\
  (forall i, (i < np)%nat -> nth i ss 0 = nth i ss0 0 \/ In (nth i ss 0) set) /\
  (forall a, In a q -> In a q0 \/ In a set).

Lemma like_0 : like ss0 q0.
Proof. unfold like; intuition. Qed.

Definition content (ss q : list Z) : list Z := known_part c ss ++ q.

Lemma set_666 a : In a set -> a <> 666.
Proof. intros H; specialize (Hok a H); lia. Qed.

Lemma filter_perm_app {A} (f : A -> bool) (l m : list A) : filter f (l ++ m) = filter f l ++ filter f m.
Proof. apply filter_app. Qed.

Lemma known_part_upd ss i a b : length ss = np -> In i mods -> nth i ss 0 = a -> a <> 666 -> b <> 666 ->
  let ss' := (if sym c then upd (length ss - i - 1) b (upd i b ss) else upd i b ss) in
  exists rest, Permutation (known_part c ss) (a :: rest) /\ Permutation (known_part c ss') (b :: rest) /\ middle_part c ss' = middle_part c ss.
Proof.
  intros L Hi Ea Na Nb. destruct (ind_plies_A_spec c p_A np) as [_ M]. destruct (M i Hi) as [M1 [M2 M3]].
  pose proof (Nat.div_mod np 2 ltac:(lia)) as D. pose proof (Nat.mod_upper_bound np 2 ltac:(lia)) as D2.
  assert (G : forall H : list Z, (i < length H)%nat -> nth i H 0 = a -> exists rest,
     Permutation (filter (fun a => negb (a =? 666)) H) (a :: rest) /\ Permutation (filter (fun a => negb (a =? 666)) (upd i b H)) (b :: rest)).
  { clear - Na Nb. intros H; revert i; induction H as [|x H IH]; intros [|i] Li E; cbn in Li; try lia.
    - cbn in E; subst x. cbn [upd filter]. replace (a =? 666) with false by (symmetry; apply Z.eqb_neq; auto).
      replace (b =? 666) with false by (symmetry; apply Z.eqb_neq; auto). cbn [negb]. eauto.
    - cbn in E. destruct (IH i ltac:(lia) E) as [r [P1 P2]]. cbn [upd filter].
      destruct (negb (x =? 666)); [|eauto]. exists (x :: r). split; [rewrite P1|rewrite P2]; apply perm_swap. }
  unfold known_part, middle_part. destruct (sym c) eqn:Es; cbn zeta.
  - specialize (M3 eq_refl). rewrite !upd_length, L.
    assert (F : firstn (np / 2) (upd (np - i - 1) b (upd i b ss)) = upd i b (firstn (np / 2) ss)).
    { apply (list_ext _ _ 0); [rewrite upd_length, !firstn_length, !upd_length; lia|].
      intros j Hj. rewrite firstn_length, !upd_length, L in Hj. rewrite nth_firstn, !nth_upd, upd_length, firstn_length, L by lia.
      destruct (Nat.eqb_spec (np - i - 1) j); [lia|]. cbn [andb].
      destruct (Nat.eqb_spec i j); cbn [andb]; [|rewrite nth_firstn by lia; reflexivity].
      destruct (Nat.ltb_spec i np); [|lia]. destruct (Nat.ltb_spec i (Nat.min (np / 2) np)); [reflexivity|lia]. }
    destruct (G (firstn (np / 2) ss)) as [r [P1 P2]]; [rewrite firstn_length; lia|rewrite nth_firstn by lia; exact Ea|].
    exists r. rewrite F. split; [exact P1|]. split; [exact P2|].
    cbn [andb]. destruct (Nat.odd np) eqn:O; [|reflexivity]. f_equal. rewrite !nth_upd.
    assert (np mod 2 = 1)%nat by (apply Nat.odd_spec in O; destruct O as [z O]; lia).
    destruct (Nat.eqb_spec (np - i - 1) (np / 2)); [lia|]. destruct (Nat.eqb_spec i (np / 2)); [lia|]. reflexivity.
  - destruct (G ss) as [r [P1 P2]]; [lia|exact Ea|]. exists r. cbn [andb]. auto.
Qed.

Lemma change_ply_ok ss q L pend x a b : like ss q -> listed ss q L ((x, a) :: pend) -> In a set -> In b set ->
  exists ss' q' rest, change_ply c x a b (ss, q) = Ok (ss', q') /\ like ss' q' /\ listed ss' q' L ((x, b) :: pend) /\
    Permutation (content ss q) (a :: rest) /\ Permutation (content ss' q') (b :: rest) /\ middle_part c ss' = middle_part c ss.
Proof.
  intros (K1 & K2 & K3 & K4 & K5 & K6 & K7 & K8) [LL Li] Ha Hb.
  destruct (In_nth_error _ _ Ha) as [ka Eka].
  assert (C1 : 1 <= (if x =? 6666 then count a q else 0) + (if (is_mod x && (nth (Z.to_nat x) ss 0 =? a))%bool then 1 else 0)).
  { rewrite <- (Li ka a Eka x). rewrite pcount_cons, !Z.eqb_refl. cbn [andb].
    pose proof (count_nonneg x (nth ka L [])). pose proof (pcount_nonneg x a pend). lia. }
  unfold change_ply; cbn [fst snd].
  destruct (Z.eqb_spec x 6666) as [->|Nx].
  - rewrite is_mod_6666 in C1. cbn [andb] in C1.
    assert (Hq : In a q) by (apply count_pos; lia).
    assert (memb a q = true) as -> by (unfold memb; apply existsb_exists; exists a; split; [exact Hq|apply Z.eqb_refl]).
    exists ss, (remove1 a q ++ [b]), (known_part c ss ++ remove1 a q). split; [reflexivity|].
    pose proof (remove1_perm a q Hq) as Pr.
    split; [|split; [|split; [|split; [|reflexivity]]]].
    + unfold like. split; [exact K1|]. split.
      { apply Permutation_length in Pr. rewrite app_length; cbn [length] in *. lia. }
      split; [exact K3|]. split; [exact K4|]. split; [exact K5|]. split; [exact K6|]. split; [exact K7|].
      intros y Hy. apply in_app_or in Hy. destruct Hy as [Hy|[<-|[]]]; [|right; exact Hb].
      apply K8. apply (Permutation_in _ Pr). now right.
    + split; [exact LL|]. intros k d Ek y. specialize (Li k d Ek y). rewrite pcount_cons in Li |- *.
      rewrite count_app, (remove1_count a q d Hq), ccons, count_nil.
      destruct (Z.eqb_spec y 6666) as [Ey|Ny].
      * subst y. rewrite Z.eqb_refl in *; cbn [andb] in *.
        destruct (Z.eqb_spec a d), (Z.eqb_spec b d), (Z.eqb_spec d a); try lia.
      * replace (6666 =? y) with false in * by (symmetry; apply Z.eqb_neq; congruence). cbn [andb] in *. lia.
    + unfold content. transitivity (known_part c ss ++ a :: remove1 a q); [apply Permutation_app_head; symmetry; exact Pr|].
      symmetry; apply Permutation_middle.
    + unfold content. rewrite app_assoc. symmetry; apply Permutation_cons_append.
  - cbn in C1. destruct (is_mod x && (nth (Z.to_nat x) ss 0 =? a))%bool eqn:E; [|lia].
    apply andb_true_iff in E; destruct E as [E1 E2]. apply is_mod_spec in E1. destruct E1 as [i [Hi ->]].
    rewrite Nat2Z.id in *. apply Z.eqb_eq in E2.
    destruct (ind_plies_A_spec c p_A np) as [_ M]. destruct (M i Hi) as [M1 [M2 M3]].
    pose proof (Nat.div_mod np 2 ltac:(lia)) as D. pose proof (Nat.mod_upper_bound np 2 ltac:(lia)) as D2.
    destruct (known_part_upd ss i a b K1 Hi E2 (set_666 a Ha) (set_666 b Hb)) as [r [P1 [P2 P3]]].
    cbn zeta in P2, P3. rewrite upd_length.
    set (ss' := if sym c then upd (length ss - i - 1) b (upd i b ss) else upd i b ss) in *.
    assert (N' : forall j, (j < np)%nat -> nth j ss' 0 = if (Nat.eqb j i || (sym c && Nat.eqb j (np - i - 1)))%bool then b else nth j ss 0).
    { intros j Hj. unfold ss'. destruct (sym c); rewrite !nth_upd, ?upd_length, K1.
      - destruct (Nat.eqb_spec (np - i - 1) j), (Nat.eqb_spec j (np - i - 1)); try lia; cbn [andb].
        + destruct (Nat.ltb_spec (np - i - 1) np); [|lia]. rewrite orb_true_r. reflexivity.
        + rewrite orb_false_r. destruct (Nat.eqb_spec i j), (Nat.eqb_spec j i); try lia; cbn [andb]; auto.
          destruct (Nat.ltb_spec i np); [reflexivity|lia].
      - rewrite orb_false_r. destruct (Nat.eqb_spec i j), (Nat.eqb_spec j i); try lia; cbn [andb]; auto.
        destruct (Nat.ltb_spec i np); [reflexivity|lia]. }
    assert (Ls' : length ss' = np) by (unfold ss'; destruct (sym c); rewrite !upd_length; exact K1).
    assert (Hid : nth i ss 0 <> 666) by (rewrite E2; apply set_666, Ha).
    assert (Hmir : forall j, sym c = true -> (j < np)%nat -> nth (np - 1 - j) ss 0 = nth j ss 0).
    { intros j Es Hj. rewrite (K5 Es) at 1. rewrite rev_nth by lia. f_equal; lia. }
    assert (Ch : forall j, (j < np)%nat -> ((j =? i)%nat || sym c && (j =? np - i - 1)%nat)%bool = true ->
       nth j ss 0 <> 666 /\ (In j mods \/ (sym c = true /\ In (np - j - 1)%nat mods)) /\ ~ (sym c = true /\ Nat.odd np = true /\ j = (np / 2)%nat)).
    { intros j Hj E. assert (O : Nat.odd np = true -> (np mod 2 = 1)%nat) by (intros O; apply Nat.odd_spec in O; destruct O as [z O]; lia).
      apply orb_true_iff in E; destruct E as [E|E].
      - apply Nat.eqb_eq in E; subst j. split; [exact Hid|]. split; [auto|]. intros [Es [On X]]. specialize (M3 Es). lia.
      - apply andb_true_iff in E; destruct E as [Es E]. apply Nat.eqb_eq in E; subst j. specialize (M3 Es).
        split; [replace (np - i - 1)%nat with (np - 1 - i)%nat by lia; rewrite Hmir by (auto; lia); exact Hid|].
        split; [right; split; [exact Es|]; replace (np - (np - i - 1) - 1)%nat with i by lia; exact Hi|]. intros [_ [On X]]. specialize (O On). lia. }
    exists ss', q, (r ++ q). split; [unfold ss'; reflexivity|].
    split; [|split; [|split; [|split; [|exact P3]]]].
    + unfold like. split; [exact Ls'|]. split; [exact K2|].
      split.
      { intros j Hj. rewrite N' by exact Hj. destruct (_ || _)%bool eqn:E; [|apply K3, Hj].
        destruct (Ch j Hj E) as [C2 _]. split; [intros X; exfalso; exact (set_666 b Hb X)|]. intros X. exfalso. apply C2. apply K3; auto. }
      split.
      { intros j Hj Hp Hp'. rewrite N' by exact Hj. destruct (_ || _)%bool eqn:E; [|apply K4; auto].
        destruct (Ch j Hj E) as [_ [[C2|[C2 C3]] _]]; exfalso; [auto|apply Hp'; auto]. }
      split.
      { intros Es. apply (list_ext _ _ 0); [rewrite rev_length; reflexivity|]. intros j Hj. rewrite Ls' in Hj.
        rewrite rev_nth, Ls' by lia. rewrite !N' by lia. rewrite Es; cbn [andb].
        destruct (Nat.eqb_spec j i), (Nat.eqb_spec j (np - i - 1)), (Nat.eqb_spec (np - S j) i), (Nat.eqb_spec (np - S j) (np - i - 1)); try lia; cbn [orb]; auto.
        symmetry. replace (np - S j)%nat with (np - 1 - j)%nat by lia. apply Hmir; auto. }
      split.
      { intros Es On. rewrite N' by lia. destruct (_ || _)%bool eqn:E; [|apply K6; auto].
        destruct (Ch (np / 2)%nat ltac:(lia) E) as [_ [_ C4]]. exfalso; auto. }
      split; [|exact K8].
      intros j Hj. rewrite N' by exact Hj. destruct (_ || _)%bool; [right; exact Hb|apply K7, Hj].
    + split; [exact LL|]. intros k d Ek y. specialize (Li k d Ek y). rewrite pcount_cons in Li |- *.
      replace (count y (nth k L []) + ((if (Z.of_nat i =? y) && (b =? d) then 1 else 0) + pcount y d pend)) with
        (count y (nth k L []) + ((if (Z.of_nat i =? y) && (a =? d) then 1 else 0) + pcount y d pend)
         - (if (Z.of_nat i =? y) && (a =? d) then 1 else 0) + (if (Z.of_nat i =? y) && (b =? d) then 1 else 0)) by lia.
      rewrite Li. clear Li.
      destruct (is_mod y) eqn:Ey; cbn [andb].
      * apply is_mod_spec in Ey. destruct Ey as [j [Hj ->]]. rewrite Nat2Z.id. destruct (M j Hj) as [Q1 [Q2 Q3]].
        rewrite N' by lia. destruct (Z.eqb_spec (Z.of_nat i) (Z.of_nat j)) as [Eij|Eij].
        -- apply Nat2Z.inj in Eij; subst j. rewrite Nat.eqb_refl; cbn [orb andb]. rewrite E2. lia.
        -- cbn [andb]. destruct (Nat.eqb_spec j i); [congruence|]. cbn [orb].
           destruct (sym c) eqn:Es; cbn [andb]; [|lia].
           specialize (M3 eq_refl). specialize (Q3 eq_refl). destruct (Nat.eqb_spec j (np - i - 1)); lia.
      * destruct (Z.eqb_spec (Z.of_nat i) y) as [<-|N]; [|cbn [andb]; lia].
        exfalso. assert (is_mod (Z.of_nat i) = true) by (apply is_mod_spec; eauto). congruence.
    + unfold content. rewrite P1. reflexivity.
    + unfold content. rewrite P2. reflexivity.
Qed.

Lemma listed_perm ss q L pend pend' : Permutation pend pend' -> listed ss q L pend -> listed ss q L pend'.
Proof.
  intros P [LL H]; split; [exact LL|]. intros k a E x. rewrite <- (H k a E x). f_equal.
  unfold pcount. f_equal. clear - P. induction P; rewrite ?countb_cons; auto; try lia.
Qed.

Lemma nth_error_inj k k' (a : Z) : nth_error set k = Some a -> nth_error set k' = Some a -> k = k'.
Proof.
  intros E E'. apply (proj1 (NoDup_nth_error set) Hset); [apply nth_error_Some; rewrite E; discriminate|congruence].
Qed.

Lemma pop_ok ss q L pend k a : listed ss q L pend -> nth_error set k = Some a -> nth k L [] <> [] ->
  exists x t, nth k L [] = x :: t /\ pop_index k L = Ok (x, upd k t L) /\ listed ss q (upd k t L) ((x, a) :: pend).
Proof.
  intros [LL H] E N. unfold pop_index. destruct (nth k L []) as [|x t] eqn:En; [congruence|].
  assert (Hk : (k < length set)%nat) by (apply nth_error_Some; congruence).
  exists x, t. split; [reflexivity|]. split; [reflexivity|]. split; [rewrite upd_length; exact LL|].
  intros k' a' E' y. rewrite <- (H k' a' E' y), nth_upd, pcount_cons.
  destruct (Nat.eqb_spec k k') as [->|Nk].
  - rewrite LL. destruct (Nat.ltb_spec k' (length set)); [|lia]. cbn [andb]. assert (a' = a) by congruence. subst a'.
    rewrite En, ccons. rewrite Z.eqb_refl, andb_true_r. destruct (Z.eqb_spec x y), (Z.eqb_spec y x); try congruence; lia.
  - cbn [andb]. destruct (Z.eqb_spec a a'); [|rewrite andb_false_r; lia].
    subst a'. exfalso; apply Nk. eapply nth_error_inj; eauto.
Qed.

Lemma add_ok ss q L pend k a x : listed ss q L ((x, a) :: pend) -> nth_error set k = Some a -> listed ss q (add_index k x L) pend.
Proof.
  intros [LL H] E. unfold add_index.
  assert (Hk : (k < length set)%nat) by (apply nth_error_Some; congruence).
  split; [rewrite upd_length; exact LL|].
  intros k' a' E' y. rewrite <- (H k' a' E' y), nth_upd, pcount_cons.
  destruct (Nat.eqb_spec k k') as [->|Nk].
  - rewrite LL. destruct (Nat.ltb_spec k' (length set)); [|lia]. cbn [andb]. assert (a' = a) by congruence. subst a'.
    rewrite count_app, ccons, count_nil. rewrite Z.eqb_refl, andb_true_r. destruct (Z.eqb_spec x y), (Z.eqb_spec y x); try congruence; lia.
  - cbn [andb]. destruct (Z.eqb_spec a a'); [|rewrite andb_false_r; lia].
    subst a'. exfalso; apply Nk. eapply nth_error_inj; eauto.
Qed.

Notation order := (sort_order c p_A np).
Lemma order_nodup : NoDup order.
Proof.
  unfold sort_order. destruct (ind_plies_A_spec c p_A np) as [N _]. constructor.
  - rewrite in_map_iff. intros [i [E _]]. lia.
  - apply FinFun.Injective_map_NoDup; [intros x y; apply Nat2Z.inj|exact N].
Qed.
Lemma resort_ok l : exists r, resort c order l = Ok r /\ Permutation r l.
Proof.
  unfold resort. destruct (sym c).
  - eexists; split; [reflexivity|]. rewrite <- Permutation_rev. apply isort_perm.
  - destruct (sortAccording_sorts l order) as [f [b [E [P _]]]].
    { intros a _. pose proof order_nodup as N. unfold count. rewrite NoDup_count_occ in N. specialize (N a). instantiate (1 := Z.eq_dec) in N. lia. }
    rewrite E; cbn [bind]. eexists; split; [reflexivity|]. rewrite <- Permutation_rev. exact P.
Qed.
Lemma resort_at_ok k L : exists L', resort_at c order k L = Ok L' /\
  forall ss q pend, listed ss q L pend -> listed ss q L' pend.
Proof.
  unfold resort_at. destruct (resort_ok (nth k L [])) as [r [E P]]. rewrite E; cbn [bind]. eexists; split; [reflexivity|].
  intros ss q pend [LL H]. split; [rewrite upd_length; exact LL|]. intros k' a E' x. rewrite <- (H k' a E' x), nth_upd.
  destruct (Nat.eqb_spec k k') as [->|]; cbn [andb]; [|reflexivity]. destruct (Nat.ltb_spec k' (length L)); [|reflexivity].
  rewrite (count_perm x _ _ P). reflexivity.
Qed.

(** the plies and the in-plane lamination parameters agree *)
Record good (st : mstate) : Prop := {
  g_like : like (m_ss st) (m_q st);
  g_listed : listed (m_ss st) (m_q st) (m_ind st) [];
  g_middle : middle_part c (m_ss st) = middle_part c ss0;
  g_lp : forall i, (m_lp st i == lampamA_ply_queue c cos_sin (m_ss st) (m_q st) i)%Q;
  g_obj : (m_obj st == objective coeffs target (m_lp st))%Q }.

Lemma change_one_ok st k1 k2 a1 a2 lp obj ex :
  like (m_ss st) (m_q st) -> listed (m_ss st) (m_q st) (m_ind st) [] ->
  nth_error set k1 = Some a1 -> nth_error set k2 = Some a2 -> nth k1 (m_ind st) [] <> [] ->
  exists s rest, change_one c order a1 a2 k1 k2 st lp obj ex = Ok s /\ like (m_ss s) (m_q s) /\ listed (m_ss s) (m_q s) (m_ind s) [] /\
    Permutation (content (m_ss st) (m_q st)) (a1 :: rest) /\ Permutation (content (m_ss s) (m_q s)) (a2 :: rest) /\
    middle_part c (m_ss s) = middle_part c (m_ss st) /\ m_lp s = lp /\ m_obj s = obj /\ m_excess s = ex.
Proof.
  intros K Li E1 E2 N. unfold change_one.
  destruct (pop_ok _ _ _ _ _ _ Li E1 N) as [x [t [En [Ep Li1]]]]. rewrite Ep; cbn [bind fst snd].
  destruct (change_ply_ok _ _ _ _ _ _ _ K Li1 (nth_error_In _ _ E1) (nth_error_In _ _ E2)) as [ss' [q' [rest [Ec [K' [Li2 [P1 [P2 P3]]]]]]]].
  rewrite Ec; cbn [bind fst snd].
  pose proof (add_ok _ _ _ _ _ _ _ Li2 E2) as Li3.
  destruct (resort_at_ok k2 (add_index k2 x (upd k1 t (m_ind st)))) as [L' [Er Hr]]. rewrite Er; cbn [bind].
  exists {| m_ss := ss'; m_q := q'; m_lp := lp; m_obj := obj; m_ind := L'; m_excess := ex |}, rest. cbn [m_ss m_q m_lp m_obj m_ind m_excess]. auto 12.
Qed.

Lemma change_couple_ok st k1 k1' k2 k2' a1 a2 lp obj ex :
  like (m_ss st) (m_q st) -> listed (m_ss st) (m_q st) (m_ind st) [] ->
  nth_error set k1 = Some a1 -> nth_error set k1' = Some (partner a1) ->
  nth_error set k2 = Some a2 -> nth_error set k2' = Some (partner a2) ->
  nth k1 (m_ind st) [] <> [] -> nth k1' (m_ind st) [] <> [] -> (k1 = k1' -> (2 <= length (nth k1 (m_ind st) []))%nat) -> a2 <> partner a1 ->
  exists s rest, change_couple c order a1 a2 k1 k1' k2 k2' st lp obj ex = Ok s /\ like (m_ss s) (m_q s) /\ listed (m_ss s) (m_q s) (m_ind s) [] /\
    Permutation (content (m_ss st) (m_q st)) (a1 :: partner a1 :: rest) /\ Permutation (content (m_ss s) (m_q s)) (a2 :: partner a2 :: rest) /\
    middle_part c (m_ss s) = middle_part c (m_ss st) /\ m_lp s = lp /\ m_obj s = obj /\ m_excess s = ex.
Proof.
  intros K Li E1 E1' E2 E2' N N' Two Na. unfold change_couple.
  destruct (pop_ok _ _ _ _ _ _ Li E1 N) as [x [t [En [Ep Li1]]]]. rewrite Ep; cbn [bind fst snd].
  destruct Li as [LL Li].
  assert (N2 : nth k1' (upd k1 t (m_ind st)) [] <> []).
  { rewrite nth_upd. destruct (Nat.eqb_spec k1 k1') as [Ek|]; cbn [andb]; [|exact N'].
    destruct (Nat.ltb_spec k1 (length (m_ind st))); [|exact N']. specialize (Two Ek). rewrite En in Two. cbn in Two. destruct t; [cbn in Two; lia|discriminate]. }
  destruct (pop_ok _ _ _ _ _ _ Li1 E1' N2) as [x' [t' [En' [Ep' Li2]]]]. rewrite Ep'; cbn [bind fst snd].
  apply (listed_perm _ _ _ _ _ (perm_swap _ _ _)) in Li2.
  destruct (change_ply_ok _ _ _ _ _ _ _ K Li2 (nth_error_In _ _ E1) (nth_error_In _ _ E2)) as [ss' [q' [rest [Ec [K' [Li3 [P1 [P2 P3]]]]]]]].
  rewrite Ec; cbn [bind fst snd].
  apply (listed_perm _ _ _ _ _ (perm_swap _ _ _)) in Li3.
  destruct (change_ply_ok _ _ _ _ _ _ _ K' Li3 (nth_error_In _ _ E1') (nth_error_In _ _ E2')) as [ss2 [q2 [rest2 [Ec2 [K2 [Li4 [Q1 [Q2 Q3]]]]]]]].
  rewrite Ec2; cbn [bind fst snd].
  apply (listed_perm _ _ _ _ _ (perm_swap _ _ _)) in Li4.
  pose proof (add_ok _ _ _ _ _ _ _ (add_ok _ _ _ _ _ _ _ Li4 E2) E2') as Li5.
  destruct (resort_at_ok k2 (add_index k2' x' (add_index k2 x (upd k1' t' (upd k1 t (m_ind st)))))) as [L1 [Er1 Hr1]]. rewrite Er1; cbn [bind].
  destruct (resort_at_ok k2' L1) as [L2 [Er2 Hr2]]. rewrite Er2; cbn [bind].
  assert (exists r, Permutation rest (partner a1 :: r) /\ Permutation rest2 (a2 :: r)) as [r [R1 R2]].
  { rewrite P2 in Q1. assert (I : In (partner a1) rest).
      { assert (H : In (partner a1) (a2 :: rest)) by (rewrite Q1; now left). destruct H as [H|H]; [congruence|exact H]. }
      destruct (in_split _ _ I) as [l1 [l2 El]]. exists (l1 ++ l2). split; [subst rest; symmetry; apply Permutation_middle|].
      apply (Permutation_cons_inv (a := partner a1)). rewrite <- Q1. subst rest.
      rewrite <- (Permutation_middle (a2 :: l1) l2 (partner a1)). reflexivity. }
  exists {| m_ss := ss2; m_q := q2; m_lp := lp; m_obj := obj; m_ind := L2; m_excess := ex |}, r. cbn [m_ss m_q m_lp m_obj m_ind m_excess].
  split; [reflexivity|]. split; [exact K2|]. split; [auto|]. split; [rewrite P1, R1; reflexivity|]. split; [rewrite Q2, R2; apply perm_swap|].
  split; [congruence|]. auto.
Qed.

(** the initial state *)
Hypothesis Hss : forall i, (i < np)%nat -> nth i ss0 0 = 666 \/ In (nth i ss0 0) set.
Hypothesis Hq : forall a, In a q0 -> In a set.
Hypothesis Hmid : sym c = true -> Nat.odd np = true -> nth (np / 2) ss0 0 <> 666.

Lemma index_plies_ok inds : (forall i, In i inds -> (i < np)%nat) -> forall L, length L = length set ->
  exists L', index_plies c ss0 inds L = Ok L' /\ length L' = length set /\
    forall k a, nth_error set k = Some a -> forall x,
      count x (nth k L' []) = count x (nth k L []) + Z.of_nat (countb (fun i => (Z.of_nat i =? x) && (nth i ss0 0 =? a)) inds).
Proof.
  induction inds as [|i inds IH]; intros B L LL; cbn [index_plies].
  - exists L. split; [reflexivity|]. split; [exact LL|]. intros; cbn; lia.
  - destruct (Z.eqb_spec (nth i ss0 0) 666) as [E|N]; cbn [negb].
    + destruct (IH (fun j H => B j (or_intror H)) L LL) as [L' [E1 [E2 E3]]]. exists L'. split; [exact E1|]. split; [exact E2|].
      intros k a Ek x. rewrite (E3 k a Ek x), countb_cons. rewrite E.
      destruct (Z.eqb_spec 666 a); [exfalso; apply (set_666 a); [eapply nth_error_In; eauto|auto]|]. rewrite andb_false_r. lia.
    + destruct (Hss i (B i (or_introl eq_refl))) as [X|X]; [congruence|].
      destruct (In_nth_error _ _ X) as [k0 E0]. assert (N9 : nth i ss0 0 <> -90) by (specialize (Hok _ X); lia).
      rewrite (proj2 (lookup_ok _ k0 N9) E0); cbn [bind].
      assert (Hk : (k0 < length set)%nat) by (apply nth_error_Some; congruence).
      destruct (IH (fun j H => B j (or_intror H)) (add_index k0 (Z.of_nat i) L)) as [L' [E1 [E2 E3]]]; [unfold add_index; rewrite upd_length; exact LL|].
      exists L'. split; [exact E1|]. split; [exact E2|]. intros k a Ek x. rewrite (E3 k a Ek x), countb_cons. unfold add_index. rewrite nth_upd, LL.
      destruct (Nat.eqb_spec k0 k) as [->|Nk].
      * destruct (Nat.ltb_spec k (length set)); [|lia]. cbn [andb]. rewrite count_app, ccons, count_nil.
        replace (nth i ss0 0 =? a) with true by (symmetry; apply Z.eqb_eq; congruence). rewrite andb_true_r.
        destruct (Z.eqb_spec x (Z.of_nat i)), (Z.eqb_spec (Z.of_nat i) x); try congruence; lia.
      * cbn [andb]. destruct (Z.eqb_spec (nth i ss0 0) a) as [Ea|]; [|rewrite andb_false_r; lia].
        exfalso; apply Nk. eapply nth_error_inj; [rewrite E0, Ea; reflexivity|exact Ek].
Qed.

Lemma index_queue_ok q : (forall a, In a q -> In a set) -> forall L, length L = length set ->
  exists L', index_queue c q L = Ok L' /\ length L' = length set /\
    forall k a, nth_error set k = Some a -> forall x,
      count x (nth k L' []) = count x (nth k L []) + (if x =? 6666 then count a q else 0).
Proof.
  induction q as [|b q IH]; intros B L LL; cbn [index_queue].
  - exists L. split; [reflexivity|]. split; [exact LL|]. intros k a Ek x. rewrite count_nil. destruct (x =? 6666); lia.
  - pose proof (B b (or_introl eq_refl)) as X.
    destruct (In_nth_error _ _ X) as [k0 E0]. assert (N9 : b <> -90) by (specialize (Hok _ X); lia).
    rewrite (proj2 (lookup_ok _ k0 N9) E0); cbn [bind].
    assert (Hk : (k0 < length set)%nat) by (apply nth_error_Some; congruence).
    destruct (IH (fun a H => B a (or_intror H)) (push_index k0 6666 L)) as [L' [E1 [E2 E3]]]; [unfold push_index; rewrite upd_length; exact LL|].
    exists L'. split; [exact E1|]. split; [exact E2|]. intros k a Ek x. rewrite (E3 k a Ek x). unfold push_index. rewrite nth_upd, LL, (ccons a).
    destruct (Nat.eqb_spec k0 k) as [->|Nk].
    + destruct (Nat.ltb_spec k (length set)); [|lia]. cbn [andb]. rewrite ccons. assert (a = b) by congruence. subst a. rewrite Z.eqb_refl.
      destruct (Z.eqb_spec x 6666), (Z.eqb_spec 6666 x); lia.
    + cbn [andb]. destruct (Z.eqb_spec b a) as [Ea|]; [|destruct (x =? 6666); lia].
      exfalso; apply Nk. subst a. eapply nth_error_inj; eauto.
Qed.

Lemma countb_once (f : nat -> bool) (l : list nat) x : NoDup l ->
  Z.of_nat (countb (fun i => (Z.of_nat i =? x) && f i) l) = (if existsb (fun i => Z.of_nat i =? x) l && f (Z.to_nat x) then 1 else 0).
Proof.
  induction 1 as [|i l Ni N IH]; [reflexivity|]. rewrite countb_cons. cbn [existsb].
  destruct (Z.eqb_spec (Z.of_nat i) x) as [E|E]; cbn [andb orb]; [|lia].
  replace (existsb (fun i => Z.of_nat i =? x) l) with false in IH.
  - cbn [andb] in IH. subst x. rewrite Nat2Z.id. destruct (f i); lia.
  - symmetry. destruct (existsb _ l) eqn:X; auto. apply existsb_exists in X. destruct X as [j [Hj Ej]]. apply Z.eqb_eq in Ej.
    exfalso; apply Ni. replace i with j by lia. exact Hj.
Qed.

Lemma all_known_0 : all_known c ss0 q0 = true.
Proof.
  unfold all_known. apply forallb_forall. intros a Ha.
  assert (X : In a set).
  { apply in_app_or in Ha. destruct Ha as [Ha|Ha]; [|apply in_app_or in Ha; destruct Ha as [Ha|Ha]; [auto|]].
    - unfold known_part in Ha. apply filter_In in Ha. destruct Ha as [Ha N]. apply negb_true_iff, Z.eqb_neq in N.
      assert (In a ss0) as Hs. { destruct (sym c); [|exact Ha]. rewrite <- (firstn_skipn (np / 2) ss0). apply in_or_app; now left. }
      destruct (In_nth _ _ 0 Hs) as [i [Hi E]]. specialize (Hss i Hi). destruct Hss; [congruence|]. now rewrite E in *.
    - unfold middle_part in Ha. destruct (sym c) eqn:Es; [|destruct Ha]. destruct (Nat.odd np) eqn:O; cbn [andb] in Ha; [|destruct Ha].
      destruct Ha as [<-|[]]. specialize (Hmid eq_refl eq_refl). destruct (Hss (np / 2)%nat); [|congruence|auto].
      apply Nat.div_lt; [|lia]. destruct ss0; [discriminate|cbn; lia]. }
  destruct (In_nth_error _ _ X) as [k E]. assert (N9 : a <> -90) by (specialize (Hok _ X); lia).
  pose proof (proj2 (lookup_ok _ k N9) E) as Y. unfold lookup in Y. destruct (ind_angle set a); [reflexivity|discriminate].
Qed.

Lemma start_ok ex : exists st, start_state c cos_sin coeffs target p_A ss0 q0 ex = Ok st /\ good st /\
  m_ss st = ss0 /\ m_q st = q0 /\ m_lp st = lampamA_ply_queue c cos_sin ss0 q0 /\
  m_obj st = objective coeffs target (lampamA_ply_queue c cos_sin ss0 q0) /\ m_excess st = ex.
Proof.
  unfold start_state, calc_lampamA_ply_queue. rewrite all_known_0; cbn [bind].
  unfold calc_ind_plies. destruct (ind_plies_A_spec c p_A np) as [Nd M].
  destruct (index_plies_ok mods (fun i H => ltac:(specialize (M i H); lia)) (repeat [] (length set))) as [L1 [E1 [E2 E3]]]; [apply repeat_length|].
  rewrite E1; cbn [bind]. destruct (index_queue_ok q0 Hq L1 E2) as [L2 [F1 [F2 F3]]]. rewrite F1; cbn [bind].
  eexists; split; [reflexivity|]. cbn [m_ss m_q m_lp m_obj m_ind m_excess]. split; [|auto].
  constructor; cbn [m_ss m_q m_lp m_obj m_ind m_excess]; try reflexivity; try apply like_0.
  split; [exact F2|]. intros k a Ek x. rewrite (F3 k a Ek x), (E3 k a Ek x), nth_repeat, count_nil.
  rewrite (countb_once (fun i => nth i ss0 0 =? a) mods x Nd). unfold pcount, is_mod; cbn [countb]. change (countb _ []) with 0%nat. lia.
Qed.

Lemma lp_change ss q ss' q' xs ys rest i : length ss = np -> length ss' = np -> middle_part c ss' = middle_part c ss ->
  Permutation (content ss q) (xs ++ rest) -> Permutation (content ss' q') (ys ++ rest) ->
  (lampamA_ply_queue c cos_sin ss' q' i ==
   lampamA_ply_queue c cos_sin ss q i + unit_share c np * vsum cos_sin ys i - unit_share c np * vsum cos_sin xs i)%Q.
Proof.
  intros L L' Em P P'. unfold lampamA_ply_queue, vscale, vadd. rewrite L, L', Em.
  rewrite (vsum_perm _ _ _ i P), (vsum_perm _ _ _ i P').
  assert (A : forall l m, (vsum cos_sin (l ++ m) i == vsum cos_sin l i + vsum cos_sin m i)%Q).
  { intros l m; induction l as [|a l IH]; [change (vsum cos_sin [] i) with 0%Q; cbn [app]; lra|]. cbn [app]. rewrite !vsum_cons, IH. lra. }
  rewrite !A. ring.
Qed.

(** the count of +angle minus that of -angle *)
Definition even_pairs (ss q : list Z) : Prop := forall a, a <> 90 -> a <> -90 ->
  count a (content ss q) - count (-a) (content ss q) = count a (content ss0 q0) - count (-a) (content ss0 q0).

Lemma pos_angles_spec k a : nth_error (pos_angles c) k = Some a -> 0 <= a <= 90 /\ exists b, In b set /\ a = Z.abs b.
Proof.
  intros E. apply nth_error_In in E. unfold pos_angles in E. rewrite uniq_in, in_map_iff in E. destruct E as [b [<- Hb]].
  specialize (Hok b Hb). split; [lia|eauto].
Qed.

Lemma shifts_3_nth k a : nth_error set k = Some a -> vnth (shifts_3 c cos_sin np) k = vscale (unit_share c np) (cos_sin a).
Proof.
  intros E. unfold vnth, shifts_3. apply nth_error_nth. rewrite nth_error_map, E. reflexivity.
Qed.
Lemma shifts_1_nth k a : nth_error (pos_angles c) k = Some a ->
  vnth (shifts_1 c cos_sin np) k = vscale (unit_share c np) (vadd (cos_sin a) (cos_sin (partner a))).
Proof.
  intros E. unfold vnth, shifts_1. apply nth_error_nth. rewrite nth_error_map, E. reflexivity.
Qed.

(** one ply changes *)
Lemma one_good st k1 k2 a1 a2 v ex : good st ->
  nth_error set k1 = Some a1 -> nth_error set k2 = Some a2 -> nth k1 (m_ind st) [] <> [] ->
  let lp := vsub (vadd (m_lp st) (vnth (shifts_3 c cos_sin np) k2)) (vnth (shifts_3 c cos_sin np) k1) in
  v = objective coeffs target (vadd (vsub (m_lp st) (vnth (shifts_3 c cos_sin np) k1)) (vnth (shifts_3 c cos_sin np) k2)) ->
  exists s, change_one c order a1 a2 k1 k2 st lp v ex = Ok s /\ good s /\ m_lp s = lp /\ m_obj s = v /\ m_excess s = ex.
Proof.
  intros [K Li Em Elp Eo] E1 E2 N lp Ev.
  destruct (change_one_ok st k1 k2 a1 a2 lp v ex K Li E1 E2 N) as [s [rest [Ec [K' [Li' [P1 [P2 [P3 [F1 [F2 F3]]]]]]]]]].
  exists s. split; [exact Ec|]. split; [|auto]. constructor; auto.
  - congruence.
  - intros i. rewrite F1. rewrite (lp_change _ _ _ _ [a1] [a2] rest i (proj1 K) (proj1 K') P3 P1 P2).
    unfold lp, vsub, vadd. rewrite (shifts_3_nth _ _ E1), (shifts_3_nth _ _ E2), Elp. unfold vscale, vsum, sumQ; cbn. ring.
  - rewrite F2, F1, Ev. apply objective_ext. intros i. unfold lp, vadd, vsub. ring.
Qed.

Lemma partner_neg a : -90 < a <= 90 -> partner a = if a =? 90 then 90 else - a.
Proof. reflexivity. Qed.
Lemma lookup_partner a k : 0 <= a <= 90 -> lookup c (- a) = Ok k -> nth_error set k = Some (partner a).
Proof.
  intros Ha E. unfold partner. destruct (Z.eqb_spec a 90) as [->|N].
  - unfold lookup, ind_angle in E. change (- (90) =? -90) with true in E. cbn [andb] in E. destruct (memb 90 set) eqn:Mb.
    + destruct (index_of 90 set) as [j|] eqn:I; [|discriminate E]. injection E as <-. apply index_of_some in I. apply I.
    + destruct (index_of (- (90)) set) as [j|] eqn:I2; [|discriminate E]. exfalso.
      apply index_of_some in I2. destruct I2 as [_ [I2 _]]. apply nth_error_In in I2. specialize (Hok _ I2). lia.
  - apply lookup_ok; [lia|exact E].
Qed.

(** a couple of plies changes *)
Lemma couple_good st i j k1 k1' k2 k2' a1 a2 v ex : good st -> even_pairs (m_ss st) (m_q st) ->
  nth_error (pos_angles c) i = Some a1 -> nth_error (pos_angles c) j = Some a2 -> a1 <> a2 ->
  lookup c a1 = Ok k1 -> lookup c (- a1) = Ok k1' -> lookup c a2 = Ok k2 -> lookup c (- a2) = Ok k2' ->
  no_couple a1 k1 k1' (m_ind st) = false ->
  let lp := vsub (vadd (m_lp st) (vnth (shifts_1 c cos_sin np) j)) (vnth (shifts_1 c cos_sin np) i) in
  v = objective coeffs target (vadd (vsub (m_lp st) (vnth (shifts_1 c cos_sin np) i)) (vnth (shifts_1 c cos_sin np) j)) ->
  exists s, change_couple c order a1 a2 k1 k1' k2 k2' st lp v ex = Ok s /\ good s /\ even_pairs (m_ss s) (m_q s) /\ m_lp s = lp /\ m_obj s = v /\ m_excess s = ex.
Proof.
  intros [K Li Em Elp Eo] Ev Ei Ej Nij L1 L1' L2 L2' Nc lp Evv.
  destruct (pos_angles_spec _ _ Ei) as [B1 _]. destruct (pos_angles_spec _ _ Ej) as [B2 _].
  assert (E1 : nth_error set k1 = Some a1) by (apply lookup_ok; [lia|exact L1]).
  assert (E2 : nth_error set k2 = Some a2) by (apply lookup_ok; [lia|exact L2]).
  pose proof (lookup_partner _ _ B1 L1') as E1'. pose proof (lookup_partner _ _ B2 L2') as E2'.
  assert (NN : nth k1 (m_ind st) [] <> [] /\ nth k1' (m_ind st) [] <> [] /\ (k1 = k1' -> (2 <= length (nth k1 (m_ind st) []))%nat)).
  { unfold no_couple in Nc. destruct ((a1 =? 0) || (a1 =? 90))%bool eqn:Z.
    - apply Nat.ltb_ge in Nc. assert (k1' = k1) as ->.
      { eapply nth_error_inj; [exact E1'|]. rewrite E1. f_equal. unfold partner. apply orb_true_iff in Z. destruct Z as [Z|Z]; apply Z.eqb_eq in Z; subst a1; reflexivity. }
      split; [intros X; rewrite X in Nc; cbn in Nc; lia|]. split; [intros X; rewrite X in Nc; cbn in Nc; lia|auto].
    - apply orb_false_iff in Nc. destruct Nc as [N1 N2]. apply Nat.ltb_ge in N1, N2.
      split; [intros X; rewrite X in N1; cbn in N1; lia|]. split; [intros X; rewrite X in N2; cbn in N2; lia|].
      intros X. exfalso. apply orb_false_iff in Z. destruct Z as [Z1 Z2]. apply Z.eqb_neq in Z1, Z2. rewrite <- X, E1 in E1'. injection E1' as E1'.
      unfold partner in E1'. destruct (Z.eqb_spec a1 90); lia. }
  destruct NN as [N1 [N2 N3]].
  assert (Np : a2 <> partner a1) by (unfold partner; destruct (Z.eqb_spec a1 90); lia).
  destruct (change_couple_ok st k1 k1' k2 k2' a1 a2 lp v ex K Li E1 E1' E2 E2' N1 N2 N3 Np) as [s [rest [Ec [K' [Li' [P1 [P2 [P3 [F1 [F2 F3]]]]]]]]]].
  exists s. split; [exact Ec|]. split; [|split; [|auto]].
  - constructor; auto.
    + congruence.
    + intros x. rewrite F1. rewrite (lp_change _ _ _ _ [a1; partner a1] [a2; partner a2] rest x (proj1 K) (proj1 K') P3 P1 P2).
      unfold lp, vsub, vadd. rewrite (shifts_1_nth _ _ Ei), (shifts_1_nth _ _ Ej), Elp. unfold vscale, vadd, vsum, sumQ; cbn. ring.
    + rewrite F2, F1, Evv. apply objective_ext. intros x. unfold lp, vadd, vsub. ring.
  - intros a Na Na'. rewrite <- (Ev a Na Na'). rewrite (count_perm a _ _ P1), (count_perm (-a) _ _ P1), (count_perm a _ _ P2), (count_perm (-a) _ _ P2).
    rewrite !ccons.
    assert (Cp : forall b, 0 <= b <= 90 -> (if b =? a then 1 else 0) + (if partner b =? a then 1 else 0) = (if b =? - a then 1 else 0) + (if partner b =? - a then 1 else 0)).
    { intros b Hb. unfold partner. destruct (Z.eqb_spec b 90); destruct (Z.eqb_spec b a), (Z.eqb_spec b (-a)); destruct (Z.eqb_spec 90 a), (Z.eqb_spec 90 (-a)), (Z.eqb_spec (-b) a), (Z.eqb_spec (-b) (-a)); lia. }
    pose proof (Cp a1 B1). pose proof (Cp a2 B2). lia.
Qed.

(** one 0 ply becomes a 90 ply or the other way round *)
Lemma swap_good st ka kb a b sh allowed : good st -> even_pairs (m_ss st) (m_q st) -> (a = 0 /\ b = 90 \/ a = 90 /\ b = 0) ->
  lookup c a = Ok ka -> lookup c b = Ok kb ->
  (forall i, sh i == unit_share c np * (cos_sin b i - cos_sin a i))%Q ->
  exists o, swap_0_90 c coeffs target sh allowed a b ka st = Ok o /\
    match o with None => True | Some s => like (m_ss s) (m_q s) /\ even_pairs (m_ss s) (m_q s) /\ middle_part c (m_ss s) = middle_part c ss0 /\
      (forall i, (m_lp s i == lampamA_ply_queue c cos_sin (m_ss s) (m_q s) i)%Q) /\
      (m_obj s == objective coeffs target (m_lp s))%Q /\ (m_obj s + em20 < m_obj st)%Q /\ allowed (m_lp s) = true end.
Proof.
  intros [K Li Em Elp Eo] Ev Hab La Lb Hsh. unfold swap_0_90.
  assert (Ea : nth_error set ka = Some a) by (apply lookup_ok; [lia|exact La]).
  assert (Eb : nth_error set kb = Some b) by (apply lookup_ok; [lia|exact Lb]).
  destruct (nth ka (m_ind st) []) as [|x0 t0] eqn:En; [exists None; auto|].
  destruct (Qltb _ _ && _)%bool eqn:G; [|exists None; auto].
  apply andb_true_iff in G. destruct G as [G1 G2]. apply Qltb_true in G1.
  destruct (pop_ok _ _ _ _ _ _ Li Ea ltac:(rewrite En; discriminate)) as [x [t [En' [Ep Li1]]]]. rewrite Ep; cbn [bind fst snd].
  destruct (change_ply_ok _ _ _ _ _ _ _ K Li1 (nth_error_In _ _ Ea) (nth_error_In _ _ Eb)) as [ss' [q' [rest [Ec [K' [Li2 [P1 [P2 P3]]]]]]]].
  rewrite Ec; cbn [bind fst snd]. eexists; split; [reflexivity|]. cbn [m_ss m_q m_lp m_obj m_ind m_excess].
  split; [exact K'|]. split; [|split; [congruence|]].
  - intros d Na Na'. rewrite <- (Ev d Na Na'). rewrite (count_perm d _ _ P1), (count_perm (-d) _ _ P1), (count_perm d _ _ P2), (count_perm (-d) _ _ P2), !ccons.
    assert (Cp : forall e, e = 0 \/ e = 90 -> (if e =? d then 1 else 0) = (if e =? - d then 1 else 0)).
    { intros e He. destruct (Z.eqb_spec e d), (Z.eqb_spec e (-d)); lia. }
    rewrite (Cp a), (Cp b) by lia. lia.
  - split; [|split; [reflexivity|auto]].
    intros i. rewrite (lp_change _ _ _ _ [a] [b] rest i (proj1 K) (proj1 K') P3 P1 P2). unfold vadd. rewrite Elp, Hsh. unfold vsum, sumQ; cbn. ring.
Qed.

Definition sound (st : mstate) : Prop := like (m_ss st) (m_q st) /\ middle_part c (m_ss st) = middle_part c ss0 /\
  (forall i, (m_lp st i == lampamA_ply_queue c cos_sin (m_ss st) (m_q st) i)%Q) /\
  (m_obj st == objective coeffs target (m_lp st))%Q.
Lemma good_sound st : good st -> sound st.
Proof. intros [H1 H2 H3 H4 H5]. unfold sound; auto. Qed.

Variable dist : vec -> Q.
Definition within (old new : mstate) : Prop := (dist (m_lp new) <= em10)%Q.
Definition whatever (old new : mstate) : Prop := True.

Definition outcome (R : mstate -> mstate -> Prop) (Pr : mstate -> Prop) (l : list mstate) : Prop :=
  exists news st0, l = news ++ [st0] /\ m_ss st0 = ss0 /\ m_q st0 = q0 /\ Forall Pr l /\ Sorted (falls R) l.

Hypothesis Hobj : (objective coeffs target (lampamA_ply_queue c cos_sin ss0 q0) < e10)%Q.

Lemma step_no_ipo_Abdalla_ok st v i j : good st -> (i < length set)%nat -> (j < length set)%nat -> i <> j ->
  v = nth (i * length set + j) (options coeffs target (shifts_3 c cos_sin np) (m_lp st)) 0%Q -> (v < e10)%Q ->
  step_no_ipo_Abdalla c cos_sin dist order np st v i j = Ok Refuse \/
  exists s, step_no_ipo_Abdalla c cos_sin dist order np st v i j = Ok (Accept s) /\ good s /\ m_obj s = v /\ within st s.
Proof.
  intros G Hi Hj Nij Ev V. unfold step_no_ipo_Abdalla.
  destruct (Nat.ltb_spec (length (nth i (m_ind st) [])) 1) as [H|H]; [auto|].
  destruct (Qltb em10 _) eqn:D; [auto|]. apply Qltb_false in D. right.
  replace (length set) with (length (shifts_3 c cos_sin np)) in * by (unfold shifts_3; apply map_length).
  rewrite options_nth in Ev by assumption. destruct (Nat.eqb_spec i j); [congruence|].
  unfold shifts_3 in Hi, Hj; rewrite map_length in Hi, Hj.
  destruct (one_good st i j (nth i set 0) (nth j set 0) v (m_excess st) G (nth_error_nth' set 0 Hi) (nth_error_nth' set 0 Hj)) as [s [E [G' [E1 [E2 E3]]]]];
    [intros X; rewrite X in H; cbn in H; lia|exact Ev|].
  rewrite E; cbn [bind]. exists s. split; [reflexivity|]. split; [exact G'|]. split; [exact E2|]. unfold within. rewrite E1. exact D.
Qed.

Lemma step_no_ipo_ok st v i j : good st -> (i < length set)%nat -> (j < length set)%nat -> i <> j ->
  v = nth (i * length set + j) (options coeffs target (shifts_3 c cos_sin np) (m_lp st)) 0%Q -> (v < e10)%Q ->
  step_no_ipo c cos_sin order np st v i j = Ok Refuse \/
  exists s, step_no_ipo c cos_sin order np st v i j = Ok (Accept s) /\ good s /\ m_obj s = v.
Proof.
  intros G Hi Hj Nij Ev V. unfold step_no_ipo.
  destruct (Nat.ltb_spec (length (nth i (m_ind st) [])) 1) as [H|H]; [auto|].
  match goal with |- context [if ?b then Ok Refuse else _] => destruct b end; [auto|]. right.
  replace (length set) with (length (shifts_3 c cos_sin np)) in * by (unfold shifts_3; apply map_length).
  rewrite options_nth in Ev by assumption. destruct (Nat.eqb_spec i j); [congruence|].
  unfold shifts_3 in Hi, Hj; rewrite map_length in Hi, Hj. cbv zeta.
  match goal with |- context [change_one c order _ _ i j st _ v ?e] => set (ex := e) end.
  destruct (one_good st i j (nth i set 0) (nth j set 0) v ex G (nth_error_nth' set 0 Hi) (nth_error_nth' set 0 Hj)) as [s [E [G' [E1 [E2 E3]]]]];
    [intros X; rewrite X in H; cbn in H; lia|exact Ev|].
  rewrite E; cbn [bind]. exists s. auto.
Qed.

Lemma run_no_ipo_Abdalla fuel l : repair_membrane_1_no_ipo_Abdalla c cos_sin dist coeffs target fuel p_A ss0 q0 = Ok l ->
  outcome within sound l.
Proof.
  intros E. unfold repair_membrane_1_no_ipo_Abdalla in E.
  destruct (start_ok []) as [st0 [E0 [G0 [S1 [S2 [S3 [S4 S5]]]]]]]. rewrite E0 in E; cbn [bind] in E.
  destruct (refine _ _ _ _ _ _ _) as [[r acc]|] eqn:Er; cbn [bind snd] in E; [|discriminate]. injection E as <-.
  assert (Ls : length (shifts_3 c cos_sin np) = length set) by apply map_length.
  apply (refine_ok (length set) _ _ good within) in Er.
  - destruct Er as [news [-> [_ [F1 F2]]]]. exists news, st0. split; [reflexivity|]. split; [exact S1|]. split; [exact S2|].
    split; [|exact F2]. apply Forall_app. split; [eapply Forall_impl; [|exact F1]; intros; apply good_sound; auto|constructor; [apply good_sound, G0|constructor]].
  - intros x. rewrite options_length, Ls. reflexivity.
  - intros x i Hi. rewrite <- Ls in *. apply options_diag, Hi.
  - intros st v i j st' G Hi Hj Nij Ev V Es. destruct (step_no_ipo_Abdalla_ok st v i j G Hi Hj Nij Ev V) as [X|[s [X [G' [O W]]]]]; rewrite X in Es; [discriminate|].
    injection Es as <-. auto.
  - exact G0.
  - rewrite S4. exact Hobj.
  - split; [rewrite options_length, Ls; reflexivity|auto].
Qed.

Lemma run_no_ipo_body fuel m l : repair_membrane_1_no_ipo_body c cos_sin coeffs target fuel p_A ss0 q0 m = Ok l ->
  outcome whatever sound l.
Proof.
  intros E. unfold repair_membrane_1_no_ipo_body in E.
  destruct (calc_excess_10 c ss0 q0 m) as [ex|]; cbn [bind] in E; [|discriminate].
  destruct (start_ok ex) as [st0 [E0 [G0 [S1 [S2 [S3 [S4 S5]]]]]]]. rewrite E0 in E; cbn [bind] in E.
  destruct (refine _ _ _ _ _ _ _) as [[r acc]|] eqn:Er; cbn [bind snd] in E; [|discriminate]. injection E as <-.
  assert (Ls : length (shifts_3 c cos_sin np) = length set) by apply map_length.
  apply (refine_ok (length set) _ _ good whatever) in Er.
  - destruct Er as [news [-> [_ [F1 F2]]]]. exists news, st0. split; [reflexivity|]. split; [exact S1|]. split; [exact S2|].
    split; [|exact F2]. apply Forall_app. split; [eapply Forall_impl; [|exact F1]; intros; apply good_sound; auto|constructor; [apply good_sound, G0|constructor]].
  - intros x. rewrite options_length, Ls. reflexivity.
  - intros x i Hi. rewrite <- Ls in *. apply options_diag, Hi.
  - intros st v i j st' G Hi Hj Nij Ev V Es. destruct (step_no_ipo_ok st v i j G Hi Hj Nij Ev V) as [X|[s [X [G' O]]]]; rewrite X in Es; [discriminate|].
    injection Es as <-. unfold whatever; auto.
  - exact G0.
  - rewrite S4. exact Hobj.
  - split; [rewrite options_length, Ls; reflexivity|auto].
Qed.

(** the refinement without balance stops, and raises nothing *)
Lemma run_no_ipo_Abdalla_total : (forall i, (i < 4)%nat -> 0 <= coeffs i)%Q -> set <> [] ->
  exists fuel l, repair_membrane_1_no_ipo_Abdalla c cos_sin dist coeffs target fuel p_A ss0 q0 = Ok l.
Proof.
  intros Hc Hne. unfold repair_membrane_1_no_ipo_Abdalla.
  destruct (start_ok []) as [st0 [E0 [G0 [S1 [S2 [S3 [S4 S5]]]]]]]. rewrite E0; cbn [bind].
  assert (Ls : length (shifts_3 c cos_sin np) = length set) by apply map_length.
  destruct (refine_total (length set) (options coeffs target (shifts_3 c cos_sin np)) (step_no_ipo_Abdalla c cos_sin dist order np) good within) with (st := st0) (acc := [st0]) as [f [[r acc] E]].
  - intros x. rewrite options_length, Ls. reflexivity.
  - intros x i Hi. rewrite <- Ls in *. apply options_diag, Hi.
  - intros st v i j st' G Hi Hj Nij Ev V Es. destruct (step_no_ipo_Abdalla_ok st v i j G Hi Hj Nij Ev V) as [X|[s [X [G' [O W]]]]]; rewrite X in Es; [discriminate|].
    injection Es as <-. auto.
  - intros st G. rewrite (g_obj _ G). apply objective_pos, Hc.
  - intros st v i j G Hi Hj Nij Ev V. destruct (step_no_ipo_Abdalla_ok st v i j G Hi Hj Nij Ev V) as [X|[s [X _]]]; eauto.
  - destruct set; [congruence|cbn; lia].
  - exact G0.
  - rewrite S4. exact Hobj.
  - exists f, acc. rewrite E. reflexivity.
Qed.

Definition paired (st : mstate) : Prop := good st /\ even_pairs (m_ss st) (m_q st).
Definition sound_paired (st : mstate) : Prop := sound st /\ even_pairs (m_ss st) (m_q st).

Lemma index_pos_ok a k : index_pos c a = Ok k -> nth_error (pos_angles c) k = Some a.
Proof. unfold index_pos. destruct (index_of a (pos_angles c)) eqn:E; [|discriminate]. intros X; injection X as <-. apply index_of_some in E. apply E. Qed.

Lemma pos_nth_inj i j a : nth_error (pos_angles c) i = Some a -> nth_error (pos_angles c) j = Some a -> i = j.
Proof.
  intros E E'. apply (proj1 (NoDup_nth_error (pos_angles c)) (uniq_nodup _)); [apply nth_error_Some; rewrite E; discriminate|congruence].
Qed.

Lemma step_couple_ok st v i j (ex : list Q) : paired st -> (i < length (pos_angles c))%nat -> (j < length (pos_angles c))%nat -> i <> j ->
  v = nth (i * length (pos_angles c) + j) (options coeffs target (shifts_1 c cos_sin np) (m_lp st)) 0%Q ->
  forall k1 k1' k2 k2', let a1 := nth i (pos_angles c) 0 in let a2 := nth j (pos_angles c) 0 in
  lookup c a1 = Ok k1 -> lookup c (- a1) = Ok k1' -> lookup c a2 = Ok k2 -> lookup c (- a2) = Ok k2' ->
  no_couple a1 k1 k1' (m_ind st) = false ->
  let lp := vsub (vadd (m_lp st) (vnth (shifts_1 c cos_sin np) j)) (vnth (shifts_1 c cos_sin np) i) in
  exists s, change_couple c order a1 a2 k1 k1' k2 k2' st lp v ex = Ok s /\ paired s /\ m_lp s = lp /\ m_obj s = v.
Proof.
  intros [G Ep] Hi Hj Nij Ev k1 k1' k2 k2' a1 a2 L1 L1' L2 L2' Nc lp.
  replace (length (pos_angles c)) with (length (shifts_1 c cos_sin np)) in * by (unfold shifts_1; apply map_length).
  rewrite options_nth in Ev by assumption. destruct (Nat.eqb_spec i j); [congruence|].
  unfold shifts_1 in Hi, Hj; rewrite map_length in Hi, Hj.
  pose proof (nth_error_nth' (pos_angles c) 0 Hi) as Ei. pose proof (nth_error_nth' (pos_angles c) 0 Hj) as Ej.
  destruct (couple_good st i j k1 k1' k2 k2' a1 a2 v ex G Ep Ei Ej) as [s [E [G' [Ep' [E1 [E2 _]]]]]]; auto.
  { intros X. apply Nij. eapply pos_nth_inj; [exact Ei|]. fold a1. rewrite X. exact Ej. }
  exists s. unfold paired. auto.
Qed.

Lemma step_ipo_Abdalla_ok st v i j st' : paired st -> (i < length (pos_angles c))%nat -> (j < length (pos_angles c))%nat -> i <> j ->
  v = nth (i * length (pos_angles c) + j) (options coeffs target (shifts_1 c cos_sin np) (m_lp st)) 0%Q -> (v < e10)%Q ->
  step_ipo_Abdalla c cos_sin dist order np st v i j = Ok (Accept st') -> paired st' /\ m_obj st' = v /\ within st st'.
Proof.
  intros G Hi Hj Nij Ev V E. unfold step_ipo_Abdalla in E.
  destruct (lookup c (nth i _ 0)) as [k1|] eqn:L1; cbn [bind] in E; [|discriminate].
  destruct (lookup c (- nth i _ 0)) as [k1'|] eqn:L1'; cbn [bind] in E; [|discriminate].
  destruct (lookup c (nth j _ 0)) as [k2|] eqn:L2; cbn [bind] in E; [|discriminate].
  destruct (lookup c (- nth j _ 0)) as [k2'|] eqn:L2'; cbn [bind] in E; [|discriminate].
  destruct (no_couple _ _ _ _) eqn:Nc; [discriminate|].
  destruct (Qltb em10 _) eqn:D; [discriminate|]. apply Qltb_false in D.
  destruct (step_couple_ok st v i j (m_excess st) G Hi Hj Nij Ev k1 k1' k2 k2' L1 L1' L2 L2' Nc) as [s [X [P' [E1 E2]]]].
  rewrite X in E; cbn [bind] in E. injection E as <-. split; [exact P'|]. split; [exact E2|]. unfold within. rewrite E1. exact D.
Qed.
Lemma step_ipo_ok st v i j st' : paired st -> (i < length (pos_angles c))%nat -> (j < length (pos_angles c))%nat -> i <> j ->
  v = nth (i * length (pos_angles c) + j) (options coeffs target (shifts_1 c cos_sin np) (m_lp st)) 0%Q -> (v < e10)%Q ->
  step_ipo c cos_sin order np st v i j = Ok (Accept st') -> paired st' /\ m_obj st' = v /\ whatever st st'.
Proof.
  intros G Hi Hj Nij Ev V E. unfold step_ipo in E.
  destruct (lookup c (nth i _ 0)) as [k1|] eqn:L1; cbn [bind] in E; [|discriminate].
  destruct (lookup c (- nth i _ 0)) as [k1'|] eqn:L1'; cbn [bind] in E; [|discriminate].
  destruct (lookup c (nth j _ 0)) as [k2|] eqn:L2; cbn [bind] in E; [|discriminate].
  destruct (lookup c (- nth j _ 0)) as [k2'|] eqn:L2'; cbn [bind] in E; [|discriminate].
  destruct (no_couple _ _ _ _) eqn:Nc; [discriminate|].
  destruct (existsb _ _); [discriminate|]. cbv zeta in E.
  match type of E with context [change_couple c order _ _ _ _ _ _ st _ v ?e] => set (ex := e) in * end.
  destruct (step_couple_ok st v i j ex G Hi Hj Nij Ev k1 k1' k2 k2' L1 L1' L2 L2' Nc) as [s [X [P' [E1 E2]]]].
  rewrite X in E; cbn [bind] in E. injection E as <-. unfold whatever; auto.
Qed.

(** the final exchange of a 0 and a 90 *)
Lemma finish_ok (R : mstate -> mstate -> Prop) ok0 ok90 r acc news st0 l :
  (forall st s, ok0 st (m_lp s) = true -> R st s) -> (forall st s, ok90 st (m_lp s) = true -> R st s) ->
  acc = news ++ [st0] -> r = hd st0 news -> paired st0 -> m_ss st0 = ss0 -> m_q st0 = q0 ->
  Forall paired news -> Sorted (falls R) acc ->
  finish_ipo c cos_sin coeffs target np ok0 ok90 (r, acc) = Ok l -> outcome R sound_paired l.
Proof.
  intros H0 H90 -> -> P0 S1 S2 F1 F2 E. unfold finish_ipo in E. cbn [fst snd] in E.
  destruct (index_pos c 0) as [i0|] eqn:I0; cbn [bind] in E; [|discriminate].
  destruct (index_pos c 90) as [i90|] eqn:I90; cbn [bind] in E; [|discriminate].
  destruct (lookup c 0) as [k0|] eqn:L0; cbn [bind] in E; [|discriminate].
  destruct (lookup c 90) as [k90|] eqn:L90; cbn [bind] in E; [|discriminate].
  assert (Fs : forall l, Forall paired l -> Forall sound_paired l) by (intros l' Hl; eapply Forall_impl; [|exact Hl]; intros st [G Ep]; split; [apply good_sound, G|exact Ep]).
  assert (Base : outcome R sound_paired (news ++ [st0])).
  { exists news, st0. split; [reflexivity|]. split; [exact S1|]. split; [exact S2|]. split; [|exact F2]. apply Fs, Forall_app; auto. }
  set (r := hd st0 news) in *.
  assert (Pr : paired r) by (destruct news; [exact P0|inversion F1; auto]).
  assert (Ext : forall s, sound_paired s -> falls R s r -> outcome R sound_paired (s :: news ++ [st0])).
  { intros s Ss Fl. exists (s :: news), st0. split; [reflexivity|]. split; [exact S1|]. split; [exact S2|]. split; [constructor; [exact Ss|apply Fs, Forall_app; auto]|].
    constructor; [exact F2|]. unfold r in Fl. destruct news; constructor; exact Fl. }
  destruct Pr as [G Ep].
  destruct (swap_good r k0 k90 0 90 (vscale (1 # 2) (vsub (vnth (shifts_1 c cos_sin np) i90) (vnth (shifts_1 c cos_sin np) i0))) (ok0 r) G Ep (or_introl (conj eq_refl eq_refl)) L0 L90) as [o [Eo Ho]].
  { intros i. rewrite (shifts_1_nth _ _ (index_pos_ok _ _ I0)), (shifts_1_nth _ _ (index_pos_ok _ _ I90)). unfold vscale, vsub, vadd, partner; cbn. ring. }
  rewrite Eo in E; cbn [bind] in E. destruct o as [s|].
  { injection E as <-. destruct Ho as (Q1 & Q2 & Q3 & Q4 & Q5 & Q6 & Q7). apply Ext; [split; [unfold sound; auto|exact Q2]|]. split; [apply H0, Q7|exact Q6]. }
  destruct (swap_good r k90 k0 90 0 (vscale (-1 # 1) (vscale (1 # 2) (vsub (vnth (shifts_1 c cos_sin np) i90) (vnth (shifts_1 c cos_sin np) i0)))) (ok90 r) G Ep (or_intror (conj eq_refl eq_refl)) L90 L0) as [o [Eo' Ho']].
  { intros i. unfold vscale at 1 2. unfold vsub. rewrite (shifts_1_nth _ _ (index_pos_ok _ _ I0)), (shifts_1_nth _ _ (index_pos_ok _ _ I90)). unfold vscale, vsub, vadd, partner; cbn. ring. }
  rewrite Eo' in E; cbn [bind] in E. destruct o as [s|]; injection E as <-; [|exact Base].
  destruct Ho' as (Q1 & Q2 & Q3 & Q4 & Q5 & Q6 & Q7). apply Ext; [split; [unfold sound; auto|exact Q2]|]. split; [apply H90, Q7|exact Q6].
Qed.

Lemma even_0 : even_pairs ss0 q0.
Proof. intros a _ _; reflexivity. Qed.

Lemma run_ipo_Abdalla fuel l : repair_membrane_1_ipo_Abdalla c cos_sin dist coeffs target fuel p_A ss0 q0 = Ok l ->
  outcome within sound_paired l.
Proof.
  intros E. unfold repair_membrane_1_ipo_Abdalla in E.
  destruct (start_ok []) as [st0 [E0 [G0 [S1 [S2 [S3 [S4 S5]]]]]]]. rewrite E0 in E; cbn [bind] in E.
  destruct (refine _ _ _ _ _ _ _) as [[r acc]|] eqn:Er; cbn [bind snd] in E; [|discriminate].
  assert (Ls : length (shifts_1 c cos_sin np) = length (pos_angles c)) by apply map_length.
  assert (P0 : paired st0) by (split; [exact G0|rewrite S1, S2; apply even_0]).
  apply (refine_ok (length (pos_angles c)) _ _ paired within) in Er.
  - destruct Er as [news [Ea [Er [F1 F2]]]]. eapply finish_ok; [| |exact Ea|exact Er|exact P0|exact S1|exact S2|exact F1|rewrite Ea; exact F2|exact E].
    + intros st s H. apply Qeq_bool_iff in H. unfold within. rewrite H. discriminate.
    + intros st s H. apply Qeq_bool_iff in H. unfold within. rewrite H. discriminate.
  - intros x. rewrite options_length, Ls. reflexivity.
  - intros x i Hi. rewrite <- Ls in *. apply options_diag, Hi.
  - intros st v i j st' G Hi Hj Nij Ev V Es. exact (step_ipo_Abdalla_ok st v i j st' G Hi Hj Nij Ev V Es).
  - exact P0.
  - rewrite S4. exact Hobj.
  - split; [rewrite options_length, Ls; reflexivity|auto].
Qed.
Lemma run_ipo_body fuel m l : repair_membrane_1_ipo_body c cos_sin coeffs target fuel p_A ss0 q0 m = Ok l ->
  outcome whatever sound_paired l.
Proof.
  intros E. unfold repair_membrane_1_ipo_body in E.
  destruct (calc_excess_10 c ss0 q0 m) as [ex|]; cbn [bind] in E; [|discriminate].
  destruct (start_ok ex) as [st0 [E0 [G0 [S1 [S2 [S3 [S4 S5]]]]]]]. rewrite E0 in E; cbn [bind] in E.
  destruct (refine _ _ _ _ _ _ _) as [[r acc]|] eqn:Er; cbn [bind snd] in E; [|discriminate].
  assert (Ls : length (shifts_1 c cos_sin np) = length (pos_angles c)) by apply map_length.
  assert (P0 : paired st0) by (split; [exact G0|rewrite S1, S2; apply even_0]).
  apply (refine_ok (length (pos_angles c)) _ _ paired whatever) in Er.
  - destruct Er as [news [Ea [Er [F1 F2]]]]. eapply finish_ok; [| |exact Ea|exact Er|exact P0|exact S1|exact S2|exact F1|rewrite Ea; exact F2|exact E]; intros; exact I.
  - intros x. rewrite options_length, Ls. reflexivity.
  - intros x i Hi. rewrite <- Ls in *. apply options_diag, Hi.
  - intros st v i j st' G Hi Hj Nij Ev V Es. exact (step_ipo_ok st v i j st' G Hi Hj Nij Ev V Es).
  - exact P0.
  - rewrite S4. exact Hobj.
  - split; [rewrite options_length, Ls; reflexivity|auto].
Qed.
End State.
