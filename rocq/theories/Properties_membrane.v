(* Properties_membrane.v - C36, the in-plane refinement (RELAY/repair_membrane*.py).
   666 marks an unknown ply of the stack; the plies of the queue are to fill the unknown
   plies. *)
From Coq Require Import Lqa Qround Sorted.
From Verif Require Import Base Uniq Constraints Guidelines SpecGuidelines ConstraintsProofs Divers DiversProofs Divide DivideProofs Moments MomentsProofs
  Search SearchProofs Repair10 Repair10Proofs RepairDiso RepairDisoProofs Properties_guidelines Properties_repair10 Membrane MembraneProofs.
Local Open Scope Z_scope.

(* ---------------- specification ---------------- *)
(** in-plane lamination parameters of a complete laminate: the mean of the four functions
    of the angle over the plies *)
Definition in_plane (cos_sin : Z -> nat -> Q) (t : list Z) : vec :=
  fun i => (sumQ (map (fun a => cos_sin a i) t) / inject_Z (Z.of_nat (length t)))%Q.
(** weighted square distance of four lamination parameters to the target *)
Definition in_plane_objective (coeffs target x : vec) : Q :=
  (coeffs 0%nat * ((x 0%nat - target 0%nat) * (x 0%nat - target 0%nat)) + coeffs 1%nat * ((x 1%nat - target 1%nat) * (x 1%nat - target 1%nat)) +
   coeffs 2%nat * ((x 2%nat - target 2%nat) * (x 2%nat - target 2%nat)) + coeffs 3%nat * ((x 3%nat - target 3%nat) * (x 3%nat - target 3%nat)))%Q.

(** a laminate to refine: the known plies and the queue are allowed angles; a symmetric
    laminate is written in full, with its middle ply known *)
Record refinable (c : cons) (ss q : list Z) : Prop := {
  rf_length : (1 <= length ss)%nat /\ Z.of_nat (length ss) <= 6666;
  rf_plies : Forall (fun a => a = 666 \/ In a (set_of_angles c)) ss;
  rf_queue : Forall (fun a => In a (set_of_angles c)) q;
  rf_sym : sym c = true -> ss = rev ss;
  rf_middle : sym c = true -> Nat.odd (length ss) = true -> nth (length ss / 2) ss 0 <> 666 }.

(** outer plies that the damage tolerance rule protects on each side *)
Definition n_protected (c : cons) : nat :=
  if dam_tol c then match dam_tol_rule c with 2%nat | 3%nat => 2 | _ => 1 end else 0.

(** a ply that may not change: it is protected, or it is one of the outer
    (1 - p_A / 100) n / 2 plies of a side *)
Definition outer_ply (c : cons) (p_A : Q) (n i : nat) : Prop :=
  let near j := (j < n_protected c)%nat \/ (inject_Z (Z.of_nat j + 1) <= (1 - p_A / 100) * (inject_Z (Z.of_nat n) / 2))%Q in
  near i \/ near (n - 1 - i)%nat.

(** what a refinement keeps: the size, the unknown plies and the size of the queue, the
    outer plies, the symmetry and the middle ply; only allowed angles are used *)
Record keeps (c : cons) (p_A : Q) (ss q ss' q' : list Z) : Prop := {
  kp_length : length ss' = length ss;
  kp_queue : length q' = length q;
  kp_unknown : forall i, (i < length ss)%nat -> (nth i ss' 0 = 666 <-> nth i ss 0 = 666);
  kp_outer : forall i, (i < length ss)%nat -> outer_ply c p_A (length ss) i -> nth i ss' 0 = nth i ss 0;
  kp_sym : sym c = true -> ss' = rev ss';
  kp_middle : sym c = true -> Nat.odd (length ss) = true -> nth (length ss / 2) ss' 0 = nth (length ss / 2) ss 0;
  kp_allowed : Forall (fun a => a = 666 \/ In a (set_of_angles c)) ss' /\ Forall (fun a => In a (set_of_angles c)) q' }.

(* ------------------------------------------------------------------ *)
Lemma objective_spec coeffs target x : (objective coeffs target x == in_plane_objective coeffs target x)%Q.
Proof. unfold objective, in_plane_objective, sumQ. cbn. ring. Qed.
Lemma protected_spec c : protected c = n_protected c.
Proof. unfold protected, n_protected. destruct (dam_tol c); [|reflexivity]. destruct (dam_tol_rule c) as [|[|[|[|r]]]]; reflexivity. Qed.

Lemma filter_split_perm {A} (f : A -> bool) (l : list A) : Permutation l (filter (fun x => negb (f x)) l ++ filter f l).
Proof.
  induction l as [|a l IH]; [constructor|]. cbn [filter]. destruct (f a); cbn [negb].
  - rewrite <- Permutation_middle. constructor; exact IH.
  - cbn [app]. constructor; exact IH.
Qed.

Lemma fills_content c ss q t : fills (sym c) ss q t ->
  Permutation (firstn (if sym c then length ss / 2 else length ss) t) (content c ss q).
Proof.
  intros (L & Kn & Sy & Q). set (k := if sym c then (length ss / 2)%nat else length ss) in *.
  assert (Hk : (k <= length ss)%nat) by (unfold k; destruct (sym c); [apply Nat.div_le_upper_bound; lia|lia]).
  rewrite <- map_nth_seq by lia.
  rewrite (Permutation_map _ (filter_split_perm (fun i => nth i ss 0 =? 666) (seq 0 k))), map_app.
  unfold content. apply Permutation_app; [|symmetry; exact Q].
  assert (E : known_part c ss = filter (fun a => negb (a =? 666)) (map (fun i => nth i ss 0) (seq 0 k))).
  { unfold known_part. rewrite map_nth_seq by exact Hk. unfold k. destruct (sym c); [reflexivity|]. rewrite firstn_all. reflexivity. }
  rewrite E. clear E Q. assert (B : forall i, In i (seq 0 k) -> (i < length ss)%nat) by (intros i Hi; apply in_seq in Hi; lia).
  revert B. generalize (seq 0 k) as l. induction l as [|i l IH]; intros B; cbn [filter map]; [constructor|].
  destruct (Z.eqb_spec (nth i ss 0) 666) as [E|N]; cbn [negb map]; [apply IH; intros; apply B; now right|].
  rewrite Kn by (auto using in_eq). constructor. apply IH; intros; apply B; now right.
Qed.

Lemma sumQ_app l m : (sumQ (l ++ m) == sumQ l + sumQ m)%Q.
Proof. induction l as [|a l IH]; [change (sumQ []) with 0%Q; cbn [app]; lra|]. cbn [app]. change (sumQ (a :: l ++ m)) with (a + sumQ (l ++ m))%Q. change (sumQ (a :: l)) with (a + sumQ l)%Q. lra. Qed.
Lemma vsum_app cs l m i : (vsum cs (l ++ m) i == vsum cs l i + vsum cs m i)%Q.
Proof. unfold vsum. rewrite map_app. apply sumQ_app. Qed.

Lemma skipn_nth_cons (l : list Z) k : (k < length l)%nat -> skipn k l = nth k l 0 :: skipn (Datatypes.S k) l.
Proof. revert k; induction l as [|a l IH]; intros [|k] H; cbn in H; try lia; [reflexivity|]. cbn [skipn nth]. apply IH. lia. Qed.

Lemma palindrome_sum cs (t : list Z) i : t = rev t ->
  (vsum cs t i == 2 * vsum cs (firstn (length t / 2) t) i + (if Nat.odd (length t) then cs (nth (length t / 2) t 0%Z) i else 0))%Q.
Proof.
  intros P. set (h := (length t / 2)%nat).
  pose proof (Nat.div_mod (length t) 2 ltac:(lia)) as D. fold h in D. pose proof (Nat.mod_upper_bound (length t) 2 ltac:(lia)) as D2.
  assert (E : skipn (length t - h) t = rev (firstn h t)).
  { rewrite P at 2. rewrite skipn_rev. f_equal. f_equal. lia. }
  assert (M : t = firstn h t ++ firstn (length t - 2 * h) (skipn h t) ++ rev (firstn h t)).
  { rewrite <- E. rewrite <- (firstn_skipn h t) at 1. f_equal. rewrite <- (firstn_skipn (length t - 2 * h) (skipn h t)) at 1. f_equal.
    rewrite skipn_skipn. f_equal. pose proof (Nat.mod_upper_bound (length t) 2 ltac:(lia)). lia. }
  rewrite M at 1. rewrite !vsum_app. rewrite (vsum_perm cs (rev (firstn h t)) (firstn h t)) by (symmetry; apply Permutation_rev).
  destruct (Nat.odd (length t)) eqn:O.
  - assert (length t mod 2 = 1)%nat by (apply Nat.odd_spec in O; destruct O as [z O]; lia).
    replace (length t - 2 * h)%nat with 1%nat by lia.
    assert (Es : skipn h t = nth h t 0 :: skipn (Datatypes.S h) t) by (apply skipn_nth_cons; lia).
    rewrite Es. cbn [firstn]. rewrite vsum_cons. change (vsum cs [] i) with 0%Q. lra.
  - assert (length t mod 2 = 0)%nat. { pose proof (Nat.negb_odd (length t)) as X. rewrite O in X. symmetry in X. apply Nat.even_spec in X. destruct X as [z X]. lia. }
    replace (length t - 2 * h)%nat with 0%nat by lia. cbn [firstn]. change (vsum cs [] i) with 0%Q. lra.
Qed.

Lemma fills_lampam c cs ss q t i : (1 <= length ss)%nat ->
  (sym c = true -> Nat.odd (length ss) = true -> nth (length ss / 2) ss 0 <> 666) -> fills (sym c) ss q t ->
  (in_plane cs t i == lampamA_ply_queue c cs ss q i)%Q.
Proof.
  intros Ne Md F. pose proof (fills_content c ss q t F) as P. destruct F as (L & Kn & Sy & _).
  unfold in_plane. fold (vsum cs t i). unfold lampamA_ply_queue, vscale, vadd, unit_share, middle_part. fold (content c ss q). rewrite L.
  rewrite <- (vsum_perm cs _ _ i P).
  assert (Nz : ~ (inject_Z (Z.of_nat (length ss)) == 0)%Q) by (change 0%Q with (inject_Z 0); rewrite inject_Z_injective; lia).
  destruct (sym c); cbn [andb].
  - rewrite (palindrome_sum cs t i (Sy eq_refl)), L. destruct (Nat.odd (length ss)) eqn:O.
    + rewrite (Kn (length ss / 2)%nat) by (auto; apply Nat.div_lt; lia). rewrite vsum_cons. change (vsum cs [] i) with 0%Q. field. exact Nz.
    + change (vsum cs [] i) with 0%Q. field. exact Nz.
  - rewrite <- L, firstn_all. change (vsum cs [] i) with 0%Q. field. rewrite L. exact Nz.
Qed.

Lemma near_lt c p_A n j : (1 <= n)%nat -> (j < n_protected c)%nat \/ (inject_Z (Z.of_nat j + 1) <= (1 - p_A / 100) * (inject_Z (Z.of_nat n) / 2))%Q ->
  (j < Nat.max (protected c) (ind_min p_A n))%nat.
Proof.
  intros Hn [H|H]; [rewrite protected_spec; lia|]. unfold ind_min.
  apply Qfloor_resp_le in H. rewrite Qfloor_Z in H. lia.
Qed.

Lemma like_keeps c p_A ss q ss' q' : NoDup (set_of_angles c) -> refinable c ss q -> like c p_A ss q ss' q' -> keeps c p_A ss q ss' q'.
Proof.
  intros Nd [R1 R2 R3 R4 R5] (K1 & K2 & K3 & K4 & K5 & K6 & K7 & K8). constructor; auto.
  - intros i Hi O. destruct (ind_plies_A_spec c p_A (length ss)) as [_ M]. apply K4; [exact Hi| |].
    + intros X. specialize (M i X). destruct O as [O|O]; apply near_lt in O; lia.
    + intros Es X. specialize (M _ X). destruct O as [O|O]; apply near_lt in O; lia.
  - rewrite Forall_forall in R2, R3. split; apply Forall_forall.
    + intros a Ha. destruct (In_nth _ _ 0 Ha) as [i [Hi <-]]. rewrite K1 in Hi. destruct (K7 i Hi) as [E|E]; [|auto]. rewrite E. apply R2, nth_In, Hi.
    + intros a Ha. destruct (K8 a Ha); auto.
Qed.

(** a laminate of the list is strictly better than those after it *)
Definition improving (obj : list Z -> Q) (sy : bool) (l : list (list Z * list Z)) : Prop :=
  forall i j ti tj, (i < j < length l)%nat ->
    fills sy (fst (nth i l ([], []))) (snd (nth i l ([], []))) ti -> fills sy (fst (nth j l ([], []))) (snd (nth j l ([], []))) tj ->
    (obj ti < obj tj)%Q.

Lemma sorted_trans_nth {A} (R : A -> A -> Prop) (d : A) (l : list A) : (forall x y z, R x y -> R y z -> R x z) ->
  Sorted R l -> forall i j, (i < j < length l)%nat -> R (nth i l d) (nth j l d).
Proof.
  intros T Hs. apply Sorted_StronglySorted in Hs; [|exact T].
  induction Hs as [|a l Hs IH Hf]; intros i j H; cbn in H; [lia|].
  destruct j as [|j]; [lia|]. destruct i as [|i]; cbn [nth].
  - rewrite Forall_forall in Hf. apply Hf, nth_In. lia.
  - apply IH. lia.
Qed.
Lemma sorted_next {A} (R : A -> A -> Prop) (d : A) (l : list A) : Sorted R l -> forall i, (S i < length l)%nat -> R (nth i l d) (nth (S i) l d).
Proof.
  induction 1 as [|a l Hs IH Hd]; intros i H; cbn in H; [lia|]. destruct i as [|i].
  - destruct l; [cbn in H; lia|]. inversion Hd; auto.
  - cbn [nth]. apply IH. lia.
Qed.

(** C36 (in-plane): the refinement returns the laminate it was given, after laminates
    that are better and better, the best one first; all keep the size, the unknown plies,
    the outer plies and the symmetry; with balance the numbers of plies at +a and -a keep
    their difference; with the rule of Abdalla every new laminate is within 1e-10 of the
    admissible region. When the rule of Abdalla is not used see the refutation below. *)
Theorem C36_membrane_partial a c cos_sin dist coeffs target switch fuel p_A ss q m l :
  mk_cons a = Ok c -> refinable c ss q ->
  (exists t0, fills (sym c) ss q t0 /\ (in_plane_objective coeffs target (in_plane cos_sin t0) < 10000000000)%Q) ->
  (forall x y, (forall i, x i == y i)%Q -> (dist x == dist y)%Q) ->
  repair_membrane c cos_sin dist coeffs target switch fuel p_A ss q m = Ok l ->
  (exists l', l = l' ++ [(ss, q)]) /\
  improving (fun t => in_plane_objective coeffs target (in_plane cos_sin t)) (sym c) l /\
  (forall ss' q', In (ss', q') l -> keeps c p_A ss q ss' q' /\
     (ipo c = true -> forall t0 t, fills (sym c) ss q t0 -> fills (sym c) ss' q' t ->
        forall a, 0 < a < 90 -> count a t - count (-a) t = count a t0 - count (-a) t0)) /\
  (forall i t, (S i < length l)%nat -> fills (sym c) (fst (nth i l ([], []))) (snd (nth i l ([], []))) t ->
     (dist (in_plane cos_sin t) <= 1 # 10000000000)%Q).
Proof.
  intros MK RF [t0 [F0 O0]] Dx R.
  pose proof (mk_cons_consistent _ _ MK) as K. destruct (k_set _ K) as [Nd [Ok _]].
  rewrite Forall_forall in Ok. unfold angle_ok in Ok.
  pose proof RF as RF'. destruct RF' as [[R1 R1'] R2 R3 R4 R5].
  assert (Hss : forall i, (i < length ss)%nat -> nth i ss 0 = 666 \/ In (nth i ss 0) (set_of_angles c)).
  { intros i Hi. rewrite Forall_forall in R2. apply R2, nth_In, Hi. }
  assert (Hq : forall x, In x q -> In x (set_of_angles c)) by (rewrite Forall_forall in R3; exact R3).
  assert (Hobj : (objective coeffs target (lampamA_ply_queue c cos_sin ss q) < e10)%Q).
  { rewrite (objective_ext _ _ _ (in_plane cos_sin t0)); [rewrite objective_spec; exact O0|].
    intros i. symmetry. apply fills_lampam; auto. }
  unfold repair_membrane in R.
  destruct (negb switch || no_coeffs coeffs)%bool.
  { destruct (calc_lampamA_ply_queue _ _ _ _); cbn [bind] in R; [|discriminate]. injection R as <-.
    split; [exists []; reflexivity|]. split; [intros i j ti tj H; cbn in H; lia|]. split; [|intros i t H; cbn in H; lia].
    intros ss' q' [H|[]]. apply pair_equal_spec in H; destruct H as [<- <-].
    split; [apply like_keeps; auto; apply like_0; auto|].
    intros _ u t Fu Ft b Hb. pose proof (fills_content c ss q u Fu) as P1. pose proof (fills_content c ss q t Ft) as P2.
    destruct Fu as (L1 & Kn1 & Sy1 & _). destruct Ft as (L2 & Kn2 & Sy2 & _).
    destruct (sym c) eqn:Es.
    - rewrite !(count_palindrome u), !(count_palindrome t) by auto. rewrite L1, L2.
      rewrite (count_perm b _ _ P1), (count_perm (-b) _ _ P1), (count_perm b _ _ P2), (count_perm (-b) _ _ P2).
      destruct (Nat.odd (length ss)) eqn:O; [|lia]. rewrite Kn1, Kn2 by (auto; apply Nat.div_lt; lia). lia.
    - rewrite <- L1, firstn_all in P1. rewrite <- L2, firstn_all in P2.
      rewrite (count_perm b _ _ P1), (count_perm (-b) _ _ P1), (count_perm b _ _ P2), (count_perm (-b) _ _ P2). lia. }
  destruct (repair_membrane_1 _ _ _ _ _ _ _ _ _ _) as [sts|] eqn:R'; cbn [bind] in R; [|discriminate]. injection R as <-.
  assert (Out : outcome ss q (within dist) (fun st => sound c cos_sin coeffs target p_A ss q st /\ (ipo c = true -> even_pairs c ss q (m_ss st) (m_q st))) sts).
  { unfold repair_membrane_1 in R'. destruct (_ && _)%bool; [|destruct (ipo c); [unfold repair_membrane_1_ipo in R'|discriminate R']].
    - destruct (ipo c) eqn:Ei.
      + apply (run_ipo_Abdalla c cos_sin coeffs target p_A Nd Ok ss q R1' R4 Hss Hq R5) in R'; [|exact Hobj].
        destruct R' as [news [st0 [E1 [E2 [E3 [E4 E5]]]]]]. exists news, st0. repeat (split; [assumption|]). split; [|assumption].
        eapply Forall_impl; [|exact E4]. intros st [X Y]. auto.
      + apply (run_no_ipo_Abdalla c cos_sin coeffs target p_A Nd Ok ss q R1' R4 Hss Hq R5) in R'; [|exact Hobj].
        destruct R' as [news [st0 [E1 [E2 [E3 [E4 E5]]]]]]. exists news, st0. repeat (split; [assumption|]). split; [|assumption].
        eapply Forall_impl; [|exact E4]. intros st X. split; [auto|congruence].
    - destruct (calc_lampamA_ply_queue _ _ _ _); cbn [bind] in R'; [|discriminate].
      destruct (calc_excess_10 _ _ _ _); cbn [bind] in R'; [|discriminate].
      destruct (calc_ind_plies _ _ _ _); cbn [bind] in R'; discriminate. }
  clear R'. destruct Out as [news [st0 [E1 [E2 [E3 [E4 E5]]]]]].
  set (f := fun s => (m_ss s, m_q s)). set (dm := {| m_ss := []; m_q := []; m_lp := fun _ => 0%Q; m_obj := 0; m_ind := []; m_excess := [] |}).
  assert (Nth : forall i, nth i (map f sts) ([], []) = f (nth i sts dm)) by (intros i; exact (map_nth f sts dm i)).
  assert (Sd : forall s, In s sts -> sound c cos_sin coeffs target p_A ss q s /\ (ipo c = true -> even_pairs c ss q (m_ss s) (m_q s))) by (rewrite Forall_forall in E4; exact E4).
  assert (Lam : forall s t, In s sts -> fills (sym c) (m_ss s) (m_q s) t -> forall i, (in_plane cos_sin t i == m_lp s i)%Q).
  { intros s t Hs Ft i. destruct (Sd s Hs) as [(K1 & K2 & K3 & K4) _]. rewrite K3. destruct K1 as (K11 & K12 & K13 & K14 & K15 & K16 & _).
    apply fills_lampam; [rewrite K11; exact R1| |exact Ft]. rewrite K11. intros Es On. rewrite K16 by auto. auto. }
  split; [|split; [|split]].
  - exists (map f news). rewrite E1, map_app. cbn. unfold f. rewrite E2, E3. reflexivity.
  - intros i j ti tj Hij Fi Fj. rewrite map_length in Hij. rewrite Nth in Fi, Fj. cbn [fst snd f] in Fi, Fj.
    set (si := nth i sts dm) in *. set (sj := nth j sts dm) in *.
    assert (Hi : In si sts) by (apply nth_In; lia). assert (Hj : In sj sts) by (apply nth_In; lia).
    assert (Lt : (m_obj si < m_obj sj)%Q).
    { apply (sorted_trans_nth (fun x y => (m_obj x < m_obj y)%Q) dm sts); [intros x y z; apply Qlt_trans| |exact Hij].
      clear - E5. induction E5 as [|x l Hs IH Hd]; constructor; auto. destruct Hd; constructor. destruct H as [_ H]. revert H; unfold em20; lra. }
    destruct (Sd si Hi) as [(_ & _ & _ & Oi) _]. destruct (Sd sj Hj) as [(_ & _ & _ & Oj) _].
    rewrite <- !objective_spec. rewrite (objective_ext _ _ _ _ (Lam si ti Hi Fi)), (objective_ext _ _ _ _ (Lam sj tj Hj Fj)), <- Oi, <- Oj. exact Lt.
  - intros ss' q' Hin. apply in_map_iff in Hin. destruct Hin as [s [Ef Hs]]. unfold f in Ef. apply pair_equal_spec in Ef. destruct Ef as [<- <-].
    destruct (Sd s Hs) as [(K1 & K2 & K3 & K4) Ep]. split; [apply like_keeps; auto|].
    intros Ei u t Fu Ft b Hb. specialize (Ep Ei b ltac:(lia) ltac:(lia)).
    destruct K1 as (K11 & K12 & K13 & K14 & K15 & K16 & _).
    pose proof (fills_content c _ _ u Fu) as P1. pose proof (fills_content c _ _ t Ft) as P2.
    destruct Fu as (L1 & Kn1 & Sy1 & _). destruct Ft as (L2 & Kn2 & Sy2 & _). rewrite K11 in *.
    destruct (sym c) eqn:Es.
    + rewrite !(count_palindrome u), !(count_palindrome t) by auto. rewrite L1, L2.
      rewrite (count_perm b _ _ P1), (count_perm (-b) _ _ P1), (count_perm b _ _ P2), (count_perm (-b) _ _ P2).
      destruct (Nat.odd (length ss)) eqn:O; [|lia].
      assert (Hh : (length ss / 2 < length ss)%nat) by (apply Nat.div_lt; lia).
      rewrite Kn1, Kn2; [rewrite K16 by auto; lia|exact Hh|rewrite K16 by auto; auto|exact Hh|auto].
    + rewrite <- L1, firstn_all in P1. rewrite <- L2, firstn_all in P2.
      rewrite (count_perm b _ _ P1), (count_perm (-b) _ _ P1), (count_perm b _ _ P2), (count_perm (-b) _ _ P2). lia.
  - intros i t Hi Ft. rewrite map_length in Hi. rewrite Nth in Ft. cbn [fst snd f] in Ft.
    pose proof (sorted_next _ dm _ E5 i Hi) as [W _]. unfold within in W.
    rewrite (Dx _ (m_lp (nth i sts dm))); [exact W|]. apply Lam; [apply nth_In; lia|exact Ft].
Qed.
Print Assumptions C36_membrane_partial.

(* ------------------------------------------------------------------ *)
(** ** It stops *)
(** without in-plane orthotropy and with the rule of Abdalla, the refinement always
    returns *)
Theorem C36_membrane_no_ipo_stops a c cos_sin dist coeffs target switch p_A ss q m :
  mk_cons a = Ok c -> refinable c ss q ->
  (exists t0, fills (sym c) ss q t0 /\ (in_plane_objective coeffs target (in_plane cos_sin t0) < 10000000000)%Q) ->
  (forall i, (i < 4)%nat -> (0 <= coeffs i)%Q) ->
  ipo c = false -> rule_10_percent c = true -> rule_10_Abdalla c = true ->
  exists fuel l, repair_membrane c cos_sin dist coeffs target switch fuel p_A ss q m = Ok l.
Proof.
  intros MK RF [t0 [F0 O0]] Hc Ei Er Ea.
  pose proof (mk_cons_consistent _ _ MK) as K. destruct (k_set _ K) as [Nd [Ok [_ [[b [Hb _]] _]]]].
  rewrite Forall_forall in Ok. unfold angle_ok in Ok.
  destruct RF as [[R1 R1'] R2 R3 R4 R5].
  assert (Hss : forall i, (i < length ss)%nat -> nth i ss 0 = 666 \/ In (nth i ss 0) (set_of_angles c)).
  { intros i Hi. rewrite Forall_forall in R2. apply R2, nth_In, Hi. }
  assert (Hq : forall x, In x q -> In x (set_of_angles c)) by (rewrite Forall_forall in R3; exact R3).
  assert (Hobj : (objective coeffs target (lampamA_ply_queue c cos_sin ss q) < e10)%Q).
  { rewrite (objective_ext _ _ _ (in_plane cos_sin t0)); [rewrite objective_spec; exact O0|].
    intros i. symmetry. apply fills_lampam; auto. }
  unfold repair_membrane. destruct (_ || _)%bool.
  { exists 0%nat. eexists. unfold calc_lampamA_ply_queue. rewrite all_known_0 by auto. reflexivity. }
  unfold repair_membrane_1. rewrite Er, Ea, Ei. cbn [andb].
  destruct (run_no_ipo_Abdalla_total c cos_sin coeffs target p_A Nd Ok ss q R1' R4 Hss Hq R5 dist Hobj Hc) as [f [l E]]; [intros X; rewrite X in Hb; destruct Hb|].
  exists f. eexists. rewrite E. reflexivity.
Qed.
Print Assumptions C36_membrane_no_ipo_stops.

Lemma argbest_first l : forall best bi i, let r := argbest_from Qltb best bi i l in
  (r = bi /\ Forall (Qle best) l) \/
  (exists j, r = (i + j)%nat /\ (j < length l)%nat /\ (nth j l 0 < best)%Q /\ (forall j', (j' < j)%nat -> (nth j l 0 < nth j' l 0)%Q) /\ Forall (Qle (nth j l 0%Q)) l).
Proof.
  induction l as [|x l IH]; intros best bi i; cbn [argbest_from]; [left; auto|].
  destruct (Qltb x best) eqn:E; [apply Qltb_true in E|apply Qltb_false in E].
  - right. destruct (IH x i (Datatypes.S i)) as [[-> H]|[j [-> [Hj [H1 [H2 H3]]]]]].
    + exists 0%nat. cbn [nth length]. split; [lia|]. split; [lia|]. split; [exact E|]. split; [intros; lia|]. constructor; auto. lra.
    + exists (Datatypes.S j). cbn [nth length]. split; [lia|]. split; [lia|]. split; [lra|]. split; [|constructor; auto; lra].
      intros [|j'] Hj'; [exact H1|apply H2; lia].
  - destruct (IH best bi (Datatypes.S i)) as [[-> H]|[j [-> [Hj [H1 [H2 H3]]]]]].
    + left; auto.
    + right. exists (Datatypes.S j). cbn [nth length]. split; [lia|]. split; [lia|]. split; [lra|]. split; [|constructor; auto; lra].
      intros [|j'] Hj'; [lra|apply H2; lia].
Qed.
Definition first_min (l : list Q) (k : nat) : Prop :=
  (k < length l)%nat /\ (forall j, (j < k)%nat -> (nth k l 0 < nth j l 0)%Q) /\ (forall j, (j < length l)%nat -> (nth k l 0 <= nth j l 0)%Q).
Lemma argmin_first l k : argmin l = Ok k <-> first_min l k.
Proof.
  assert (G : l <> [] -> exists k, argmin l = Ok k /\ first_min l k).
  { destruct l as [|x l]; [congruence|]. intros _. unfold argmin; cbn [argbest]. eexists; split; [reflexivity|].
    destruct (argbest_first l x 0 1) as [[-> H]|[j [-> [Hj [H1 [H2 H3]]]]]]; unfold first_min; cbn [nth length plus].
    - split; [lia|]. split; [intros; lia|]. rewrite Forall_forall in H. intros [|j] Hj; [lra|]. apply H, nth_In. lia.
    - split; [lia|]. split; [intros [|j'] Hj'; [exact H1|apply H2; lia]|]. rewrite Forall_forall in H3. intros [|j'] Hj'; [lra|]. apply H3, nth_In; lia. }
  split.
  - intros E. destruct G as [k' [E' F]]; [intros ->; discriminate|]. rewrite E in E'. injection E' as ->. exact F.
  - intros [F1 [F2 F3]]. destruct G as [k' [E' [G1 [G2 G3]]]]; [intros ->; cbn in F1; lia|]. rewrite E'. f_equal.
    destruct (Nat.lt_trichotomy k k') as [H|[H|H]]; [|auto|].
    + specialize (G2 k H). specialize (F3 k' G1). lra.
    + specialize (F2 k' H). specialize (G3 k F1). lra.
Qed.

(** as soon as the best option breaks the rule of Abdalla and the entry that is crossed
    out is another one, the loop never ends *)
Lemma refine_loops m opts step st k i' j' : forall fuel tab acc,
  argmin tab = Ok k -> (nth k tab 0 < e10)%Q -> (nth k tab 0 + em20 < m_obj st)%Q -> (em10 < m_obj st)%Q ->
  (forall v, step st v (k / m)%nat (k mod m)%nat = Ok (RefuseAt i' j')) -> (i' < m)%nat -> (j' < m)%nat -> (i' * m + j')%nat <> k ->
  refine m opts step fuel tab st acc = Err OutOfFuel.
Proof.
  induction fuel as [|fuel IH]; intros tab acc Ek Hv H1 H2 Hs Hi Hj Nk; cbn [refine]; [reflexivity|].
  rewrite Ek; cbn [bind]. apply Qltb_true in H1 as B1. apply Qltb_true in H2 as B2. rewrite B1, B2. cbn [andb].
  rewrite Hs; cbn [bind]. destruct (Nat.ltb_spec i' m); [|lia]. destruct (Nat.ltb_spec j' m); [|lia]. cbn [andb].
  assert (En : nth k (upd (i' * m + j') e10 tab) 0%Q = nth k tab 0%Q).
  { rewrite nth_upd. destruct (Nat.eqb_spec (i' * m + j') k); [lia|reflexivity]. }
  apply IH; auto; rewrite ?En; auto.
  apply argmin_first in Ek. apply argmin_first. destruct Ek as [E1 [E2 E3]]. unfold first_min. rewrite upd_length, En.
  split; [exact E1|]. split; intros j'' Hj''; rewrite nth_upd; destruct (_ && _)%bool; auto. lra.
Qed.

(** the four functions cos 2a, cos 4a, sin 2a, sin 4a for the angles 0, 45, 90, -45 *)
Definition cos_sin_4 (a : Z) (i : nat) : Q :=
  match i with
  | 0%nat => if a =? 0 then 1 else if a =? 90 then -1 else 0
  | 1%nat => if ((a =? 0) || (a =? 90))%bool then 1 else -1
  | 2%nat => if a =? 45 then 1 else if a =? -45 then -1 else 0
  | _ => 0 end%Q.
(** a distance to the admissible region: 0 inside, positive outside *)
Definition dist_Abdalla (c : cons) (x : vec) : Q := if is_ten_percent_Abdalla c (x 0%nat) (x 1%nat) then 0%Q else (1 # 10)%Q.
Definition weight (k : nat) : vec := fun i => if Nat.eqb i k then 1%Q else 0%Q.

(** a conforming balanced laminate *)
Definition balanced_20 : list Z := let h := [0; 0; 0; 45; -45; 90; 90; 0; 0; 0] in h ++ rev h.

Definition zero_mini : mini10 := {| mini_0 := 0; mini_90 := 0; mini_45 := 0; mini_135 := 0; mini_45_135 := 0 |}.

Lemma balanced_20_refinable c : mk_cons args_abdalla = Ok c -> refinable c balanced_20 [] /\ fills (sym c) balanced_20 [] balanced_20 /\
  balanced balanced_20 /\ dist_Abdalla c (in_plane cos_sin_4 balanced_20) = 0%Q /\ sym c = true /\ ipo c = true /\ rule_10_percent c = true /\ rule_10_Abdalla c = true.
Proof.
  intros MK. vm_compute in MK. injection MK as <-.
  split; [constructor; cbn; try discriminate; try lia; auto|].
  - repeat (constructor; [cbn; tauto|]); constructor.
  - split; [|split; [|split; [vm_compute; reflexivity|auto]]].
    + split; [reflexivity|]. split; [auto|]. split; [reflexivity|]. vm_compute. constructor.
    + intros x Hx Hx'. destruct (Z.eq_dec x 45) as [->|N]; [reflexivity|]. destruct (Z.eq_dec x (-45)) as [->|N']; [reflexivity|].
      rewrite !(proj1 (count_occ_not_In Z.eq_dec _ _)); [reflexivity| |]; cbn; intuition lia.
Qed.

(** a balanced laminate that satisfies the rule of Abdalla, with target 1 for the second
    in-plane lamination parameter: the loop of the refinement never ends (the refused
    option is not the one that is crossed out); with target 1 for the first one the row
    that is crossed out does not exist *)
Theorem C36_membrane_ipo_loops c : mk_cons args_abdalla = Ok c ->
  (forall fuel, repair_membrane c cos_sin_4 (dist_Abdalla c) (weight 1) (weight 1) true fuel 100 balanced_20 [] zero_mini = Err OutOfFuel) /\
  (forall fuel, repair_membrane c cos_sin_4 (dist_Abdalla c) (weight 0) (weight 0) true (S fuel) 100 balanced_20 [] zero_mini = Err IndexError).
Proof.
  intros MK. vm_compute in MK. injection MK as <-.
  match goal with |- context [dist_Abdalla ?x] => set (c := x) end.
  split; intros fuel; unfold repair_membrane.
  - change (negb true || no_coeffs (weight 1))%bool with false. cbv iota.
    unfold repair_membrane_1. change (rule_10_percent c && rule_10_Abdalla c)%bool with true. change (ipo c) with true. cbv iota.
    assert (F : match start_state c cos_sin_4 (weight 1) (weight 1) 100 balanced_20 [] [] with
      | Ok st => let tab := options (weight 1) (weight 1) (shifts_1 c cos_sin_4 20) (m_lp st) in
          argmin tab = Ok 3%nat /\ Qltb (nth 3 tab 0%Q) e10 = true /\ Qltb (nth 3 tab 0 + em20)%Q (m_obj st) = true /\ Qltb em10 (m_obj st) = true /\
          forall v, step_ipo_Abdalla c cos_sin_4 (dist_Abdalla c) (sort_order c 100 20) 20 st v 1 0 = Ok (RefuseAt 2 1)
      | Err _ => False end).
    { vm_compute. repeat split. }
    unfold repair_membrane_1_ipo_Abdalla.
    destruct (start_state c cos_sin_4 (weight 1) (weight 1) 100 balanced_20 [] []) as [st|e]; [|destruct F].
    destruct F as [F1 [F2 [F3 [F4 F5]]]]. apply Qltb_true in F2, F3, F4. cbn [bind].
    rewrite refine_loops with (k := 3%nat) (i' := 2%nat) (j' := 1%nat); [reflexivity|exact F1|exact F2|exact F3|exact F4|exact F5| | |]; vm_compute; lia.
  - assert (F : match start_state c cos_sin_4 (weight 0) (weight 0) 100 balanced_20 [] [] with
      | Ok st => let tab := options (weight 0) (weight 0) (shifts_1 c cos_sin_4 20) (m_lp st) in
          argmin tab = Ok 6%nat /\ Qltb (nth 6 tab 0 + em20)%Q (m_obj st) = true /\ Qltb em10 (m_obj st) = true /\
          forall v, step_ipo_Abdalla c cos_sin_4 (dist_Abdalla c) (sort_order c 100 20) 20 st v 2 0 = Ok (RefuseAt 3 1)
      | Err _ => False end).
    { vm_compute. repeat split. }
    change (negb true || no_coeffs (weight 0))%bool with false. cbv iota.
    unfold repair_membrane_1. change (rule_10_percent c && rule_10_Abdalla c)%bool with true. change (ipo c) with true. cbv iota.
    unfold repair_membrane_1_ipo_Abdalla.
    destruct (start_state c cos_sin_4 (weight 0) (weight 0) 100 balanced_20 [] []) as [st|e]; [|destruct F].
    destruct F as [F1 [F3 [F4 F5]]]. cbn [bind refine]. change (length balanced_20) with 20%nat. rewrite F1. cbn [bind]. rewrite F3, F4. cbn [andb].
    change (length (pos_angles c)) with 3%nat. change (6 / 3)%nat with 2%nat. change (6 mod 3)%nat with 0%nat. rewrite F5. reflexivity.
Qed.
Print Assumptions C36_membrane_ipo_loops.

Lemma dist_Abdalla_ext c x y : (forall i, x i == y i)%Q -> (dist_Abdalla c x == dist_Abdalla c y)%Q.
Proof.
  intros H. unfold dist_Abdalla. replace (is_ten_percent_Abdalla c (y 0%nat) (y 1%nat)) with (is_ten_percent_Abdalla c (x 0%nat) (x 1%nat)); [reflexivity|].
  unfold is_ten_percent_Abdalla.
  assert (Ext : forall a b, (a == b)%Q -> Constraints.Qltb a 0 = Constraints.Qltb b 0).
  { intros u v E. unfold Constraints.Qltb. f_equal. apply Bool.eq_iff_eq_true. rewrite !Qle_bool_iff, E. reflexivity. }
  rewrite (Ext _ ((1 - 4 * percent_Abdalla c) * (1 - 4 * percent_Abdalla c) + (1 - 4 * percent_Abdalla c) * y 1%nat - 2 * (y 0%nat * y 0%nat) + eps15)%Q) by (rewrite !H; reflexivity).
  rewrite (Ext (1 - 4 * percent_Abdalla c - x 1%nat + eps15)%Q (1 - 4 * percent_Abdalla c - y 1%nat + eps15)%Q) by (rewrite !H; reflexivity).
  reflexivity.
Qed.

(** with in-plane orthotropy and the rule of Abdalla the refinement need not return *)
Theorem C36_membrane_ipo_stops_refuted :
  ~ (forall a c cos_sin dist coeffs target p_A ss q m,
       mk_cons a = Ok c -> refinable c ss q ->
       (exists t0, fills (sym c) ss q t0 /\ (in_plane_objective coeffs target (in_plane cos_sin t0) < 10000000000)%Q) ->
       (forall i, (i < 4)%nat -> (0 <= coeffs i)%Q) ->
       (forall x y, (forall i, x i == y i)%Q -> (dist x == dist y)%Q) ->
       rule_10_percent c = true -> rule_10_Abdalla c = true -> ipo c = true ->
       exists fuel l, repair_membrane c cos_sin dist coeffs target true fuel p_A ss q m = Ok l).
Proof.
  intros H. destruct (mk_cons args_abdalla) as [c|] eqn:E; [|vm_compute in E; discriminate].
  destruct (balanced_20_refinable c E) as (R & F & _ & _ & _ & P1 & P2 & P3).
  destruct (H args_abdalla c cos_sin_4 (dist_Abdalla c) (weight 1) (weight 1) 100%Q balanced_20 [] zero_mini E R) as [f [l X]]; auto.
  - exists balanced_20. split; [exact F|]. vm_compute. reflexivity.
  - intros i _. unfold weight. destruct (Nat.eqb i 1); discriminate.
  - apply dist_Abdalla_ext.
  - rewrite (proj1 (C36_membrane_ipo_loops c E) f) in X. discriminate.
Qed.
Print Assumptions C36_membrane_ipo_stops_refuted.

(** without the rule of Abdalla an active refinement never returns: its modules call
    functions that they do not import *)
Theorem C36_membrane_plain_refuted c cos_sin dist coeffs target fuel p_A ss q m :
  (rule_10_percent c && rule_10_Abdalla c)%bool = false -> no_coeffs coeffs = false ->
  forall l, repair_membrane c cos_sin dist coeffs target true fuel p_A ss q m <> Ok l.
Proof.
  intros R N l E. unfold repair_membrane in E. rewrite N in E. cbn [negb orb] in E. unfold repair_membrane_1 in E. rewrite R in E.
  unfold repair_membrane_1_ipo, repair_membrane_1_no_ipo in E. destruct (ipo c); [|discriminate E].
  destruct (calc_lampamA_ply_queue _ _ _ _); cbn [bind] in E; [|discriminate].
  destruct (calc_excess_10 _ _ _ _); cbn [bind] in E; [|discriminate].
  destruct (calc_ind_plies _ _ _ _); cbn [bind] in E; discriminate.
Qed.
Print Assumptions C36_membrane_plain_refuted.

(** hypotheses of [C36_membrane_partial]: a laminate with two unknown plies and a queue;
    one couple of plies is changed *)
Example C36_membrane_example : exists c, mk_cons args_abdalla = Ok c /\
  let ss := [0; 45; 666; 90; 90; -45; 666; 45; 0; 0; 0; 0; 45; 666; -45; 90; 90; 666; 45; 0] in let q := [-45; 90] in
  refinable c ss q /\
  (exists t0, fills (sym c) ss q t0 /\ (in_plane_objective (weight 0) (fun _ => 3 # 10)%Q (in_plane cos_sin_4 t0) < 10000000000)%Q) /\
  match repair_membrane c cos_sin_4 (dist_Abdalla c) (weight 0) (fun _ => 3 # 10)%Q true 20 100 ss q zero_mini with
  | Ok l => length l = 2%nat /\ hd ([], []) l = ([0; 45; 666; 90; 90; -45; 666; 0; 0; 0; 0; 0; 0; 666; -45; 90; 90; 666; 45; 0], [90; 0])
  | Err _ => False end.
Proof.
  destruct (mk_cons args_abdalla) as [c|] eqn:E; [|vm_compute in E; discriminate].
  exists c. split; [reflexivity|]. vm_compute in E. injection E as <-. cbv zeta.
  split; [|split].
  - constructor; cbn; try discriminate; try lia; auto. + repeat (constructor; [cbn; tauto|]); constructor. + repeat (constructor; [cbn; tauto|]); constructor.
  - exists [0; 45; -45; 90; 90; -45; 90; 45; 0; 0; 0; 0; 45; 90; -45; 90; 90; -45; 45; 0]. split; [|vm_compute; reflexivity].
    split; [reflexivity|]. split; [intros i Hi; do 20 (destruct i as [|i]; [cbn; auto; lia|]); cbn in Hi; lia|]. split; [reflexivity|]. apply Permutation_refl.
  - vm_compute. split; reflexivity.
Qed.
