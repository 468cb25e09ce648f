(* Properties_flexural.v - C36, the out-of-plane refinement (RELAY/repair_flexural*.py) *)
From Coq Require Import Lqa.
From Verif Require Import Base Uniq Constraints Guidelines SpecGuidelines GuidelinesProofs ConstraintsProofs Divide DivideProofs Moments MomentsProofs
  Search SearchProofs Membrane MembraneProofs Properties_guidelines Properties_beam Properties_repair10 Properties_repairdiso Properties_membrane Flexural FlexuralProofs FlexuralSwap.
Local Open Scope Z_scope.

(* ---------------- specification ---------------- *)
(** height of the upper face of ply i of n, the mid-plane at 0 and the faces of the
    laminate at 1 and -1 *)
Definition height (n i : nat) : Q := (1 - 2 * inject_Z (Z.of_nat i) / inject_Z (Z.of_nat n))%Q.
(** out-of-plane lamination parameters of a laminate *)
Definition out_of_plane (cos_sin : Z -> nat -> Q) (t : list Z) : vec :=
  fun k => ((1 # 2) * sumQ (map (fun i => (height (length t) i ^ 3 - height (length t) (S i) ^ 3) * cos_sin (nth i t 0%Z) k) (seq 0 (length t))))%Q.
Definition oop_objective (cos_sin : Z -> nat -> Q) (coeffs target : vec) (t : list Z) : Q :=
  in_plane_objective coeffs target (out_of_plane cos_sin t).

(** what a refinement keeps: the plies, up to their order, the protected outer plies and,
    for a symmetric laminate, the symmetry and the middle ply *)
Record reordered (c : cons) (t t' : list Z) : Prop := {
  ro_plies : Permutation t' t;
  ro_outer : forall i, (i < length t)%nat -> (i < n_protected c \/ length t - 1 - i < n_protected c)%nat -> nth i t' 0 = nth i t 0;
  ro_sym : sym c = true -> t' = rev t' /\ (Nat.odd (length t) = true -> nth (length t / 2) t' 0 = nth (length t / 2) t 0) }.

(* ------------------------------------------------------------------ *)
Lemma fixed_spec c : n_fixed c = n_protected c.
Proof. unfold n_fixed, n_protected. destruct (dam_tol c); [|reflexivity]. destruct (dam_tol_rule c) as [|[|[|[|r]]]]; reflexivity. Qed.
Lemma sumQ_cons x l : sumQ (x :: l) = (x + sumQ l)%Q.
Proof. reflexivity. Qed.
Lemma sumQ_ext {A} (f g : A -> Q) l : (forall x, In x l -> f x == g x)%Q -> (sumQ (map f l) == sumQ (map g l))%Q.
Proof.
  induction l as [|x l IH]; intros H; [reflexivity|]. cbn [map]. rewrite !sumQ_cons, IH by (intros; apply H; now right). rewrite (H x) by now left. reflexivity.
Qed.
Lemma sumQ_scale {A} k (f : A -> Q) l : (sumQ (map (fun x => k * f x) l) == k * sumQ (map f l))%Q.
Proof. induction l as [|x l IH]; [change (sumQ (map _ [])) with 0%Q; lra|]. cbn [map]. rewrite !sumQ_cons, IH. ring. Qed.
Lemma qn_nz n : (n <> 0)%nat -> ~ (inject_Z (Z.of_nat n) == 0)%Q.
Proof. intros H. change 0%Q with (inject_Z 0). rewrite inject_Z_injective. lia. Qed.
Lemma sec_mom_spec n i : n <> 0%nat -> (sec_mom n i == height n i ^ 3 - height n (S i) ^ 3)%Q.
Proof.
  intros H. unfold sec_mom, cube, height, qn. rewrite Nat.add_1_r. pose proof (qn_nz n H) as Z.
  assert (E : forall x, (2 / inject_Z (Z.of_nat n) * x == 2 * x / inject_Z (Z.of_nat n))%Q) by (intros x; field; exact Z).
  rewrite !E. set (a := (2 * inject_Z (Z.of_nat i) / _)%Q). set (b := (2 * inject_Z (Z.of_nat (S i)) / _)%Q). ring.
Qed.
Lemma sec_mom_mirror n i : (i < n)%nat -> (sec_mom n (n - 1 - i) == sec_mom n i)%Q.
Proof.
  intros H. unfold sec_mom, cube, qn. pose proof (qn_nz n ltac:(lia)) as Z.
  assert (E1 : (inject_Z (Z.of_nat (n - 1 - i)) == inject_Z (Z.of_nat n) - 1 - inject_Z (Z.of_nat i))%Q).
  { replace (Z.of_nat (n - 1 - i)) with (Z.of_nat n + - (1) + - Z.of_nat i) by lia. rewrite !inject_Z_plus, !inject_Z_opp. reflexivity. }
  assert (E2 : (inject_Z (Z.of_nat (n - 1 - i + 1)) == inject_Z (Z.of_nat n) - inject_Z (Z.of_nat i))%Q).
  { replace (Z.of_nat (n - 1 - i + 1)) with (Z.of_nat n + - Z.of_nat i) by lia. rewrite !inject_Z_plus, !inject_Z_opp. reflexivity. }
  assert (E3 : (inject_Z (Z.of_nat (i + 1)) == inject_Z (Z.of_nat i) + 1)%Q).
  { replace (Z.of_nat (i + 1)) with (Z.of_nat i + 1) by lia. rewrite inject_Z_plus. reflexivity. }
  rewrite E1, E2, E3. field. exact Z.
Qed.
Lemma seq_mirror n h : (h <= n)%nat -> seq (n - h) h = map (fun i => n - 1 - i)%nat (rev (seq 0 h)).
Proof.
  intros L. apply (list_ext _ _ 0%nat); [rewrite map_length, rev_length, !seq_length; reflexivity|]. intros i H. rewrite seq_length in H.
  rewrite (nth_indep (map _ _) 0%nat (n - 1 - 0)%nat) by (rewrite map_length, rev_length, seq_length; exact H). rewrite (map_nth (fun i => n - 1 - i)%nat), seq_nth by exact H.
  rewrite rev_nth by (rewrite seq_length; exact H). rewrite seq_length, seq_nth by lia. lia.
Qed.
Lemma mirrored_sum (g : nat -> Q) n : (forall i, (i < n)%nat -> g (n - 1 - i)%nat == g i)%Q ->
  (sumQ (map g (seq 0 n)) == 2 * sumQ (map g (seq 0 (n / 2))) + (if Nat.odd n then g (n / 2)%nat else 0))%Q.
Proof.
  intros G. pose proof (half_facts n) as F. set (h := (n / 2)%nat) in *.
  assert (T : (sumQ (map g (seq (n - h) h)) == sumQ (map g (seq 0 h)))%Q).
  { rewrite seq_mirror by lia. rewrite map_map. rewrite (sumQ_ext _ g) by (intros i Hi; apply G; rewrite <- in_rev in Hi; apply in_seq in Hi; lia).
    apply sumQ_perm, Permutation_map. symmetry. apply Permutation_rev. }
  assert (E : seq 0 n = seq 0 h ++ seq h (n - 2 * h) ++ seq (n - h) h).
  { replace n with (h + (n - 2 * h + h))%nat at 1 by lia. rewrite seq_app. f_equal. rewrite seq_app. f_equal. f_equal. lia. }
  rewrite E, !map_app, !sumQ_app, T. destruct (Nat.odd n) eqn:O.
  - assert (M : (n mod 2 = 1)%nat) by tauto. replace (n - 2 * h)%nat with 1%nat by lia. cbn [seq map]. rewrite sumQ_cons. change (sumQ []) with 0%Q. lra.
  - assert (M : (n mod 2 = 0)%nat) by (destruct F as (_ & F1 & F2); destruct (Nat.eq_dec (n mod 2) 1) as [X|X]; [apply F2 in X; congruence|lia]).
    replace (n - 2 * h)%nat with 0%nat by lia. cbn [seq map]. change (sumQ []) with 0%Q. lra.
Qed.

Lemma sumR_spec l : (sumR l == sumQ l)%Q.
Proof. induction l as [|x l IH]; [reflexivity|]. unfold sumR in *. cbn [fold_right]. rewrite sumQ_cons, !Qred_correct, IH. reflexivity. Qed.
Lemma lampamD_spec c cos_sin t k : (sym c = true -> t = rev t) -> (lampamD c cos_sin t k == out_of_plane cos_sin t k)%Q.
Proof.
  intros P. unfold out_of_plane, lampamD. destruct (Nat.eq_dec (length t) 0) as [Z|Z].
  { apply length_zero_iff_nil in Z. subst t. cbn. destruct (sym c); cbn; reflexivity. }
  rewrite <- (sumQ_ext (fun i => sec_mom (length t) i * cos_sin (nth i t 0%Z) k)%Q) by (intros i _; rewrite sec_mom_spec by exact Z; reflexivity).
  destruct (sym c) eqn:Y; [|unfold vscale, weighted; rewrite sumR_spec; reflexivity].
  specialize (P eq_refl). rewrite mirrored_sum.
  - pose proof (half_facts (length t)) as F. unfold vadd, weighted, vscale. rewrite sumR_spec, firstn_length, Nat.min_l by lia.
    rewrite (sumQ_ext (fun i => sec_mom (length t) i * cos_sin (nth i (firstn (length t / 2) t) 0%Z) k)%Q (fun i => sec_mom (length t) i * cos_sin (nth i t 0%Z) k)%Q).
    + destruct (Nat.odd (length t)); field.
    + intros i Hi. apply in_seq in Hi. rewrite nth_firstn by lia. reflexivity.
  - intros i Hi. rewrite sec_mom_mirror by exact Hi. rewrite (rev_nth_pal t i P Hi). reflexivity.
Qed.
Lemma objD_spec c cos_sin coeffs target t : (sym c = true -> t = rev t) -> (objD c cos_sin coeffs target t == oop_objective cos_sin coeffs target t)%Q.
Proof.
  intros P. unfold objD, oop_objective. rewrite Qred_correct, <- objective_spec. apply objective_ext. intros k. apply lampamD_spec, P.
Qed.

Lemma mirror_asym c s : sym c = false -> mirror c s = s.
Proof. intros Y. unfold mirror. rewrite Y. reflexivity. Qed.
Lemma objD_mirror c cos_sin coeffs target s : objD c cos_sin coeffs target (mirror c s) = objD c cos_sin coeffs target s.
Proof.
  destruct (sym c) eqn:Y; [|rewrite mirror_asym by exact Y; reflexivity].
  unfold objD, lampamD. rewrite (mirror_length c Y), Y. pose proof (half_facts (length s)) as F.
  assert (E : firstn (length s / 2) (mirror c s) = firstn (length s / 2) s).
  { rewrite (mirror_eq c Y), firstn_app, firstn_firstn, Nat.min_l by lia. rewrite firstn_length.
    replace (length s / 2 - Nat.min (length s - length s / 2) (length s))%nat with 0%nat by lia. cbn [firstn]. apply app_nil_r. }
  rewrite E. destruct (Nat.odd (length s)) eqn:O; [|reflexivity]. rewrite (nth_mirror c Y) by lia.
  destruct (Nat.ltb_spec (length s / 2) (length s - length s / 2)); [reflexivity|]. assert (length s mod 2 = 1)%nat by tauto. lia.
Qed.

Lemma kept_reordered c t s : (sym c = true -> t = rev t) -> kept c t s -> reordered c t (mirror c s).
Proof.
  intros P K. pose proof (kept_length _ _ _ K) as L. destruct K as [Pm E]. unfold hi in E. rewrite fixed_spec in E.
  destruct (sym c) eqn:Y.
  - specialize (P eq_refl). pose proof (half_facts (length t)) as F. set (h := (length t / 2)%nat) in *.
    assert (Sk : skipn h s = skipn h t).
    { apply (list_ext _ _ 0); [rewrite !skipn_length; lia|]. intros i _. rewrite !nth_skipn. apply E. lia. }
    assert (Ph : Permutation (firstn h s) (firstn h t)).
    { rewrite <- (firstn_skipn h s), <- (firstn_skipn h t), Sk in Pm. apply Permutation_app_inv_r in Pm. exact Pm. }
    assert (Nm : forall k, (h <= k < length t - h)%nat -> nth k s 0 = nth k t 0) by (intros k Hk; apply E; lia).
    constructor.
    + rewrite (mirror_eq c Y), L. fold h.
      assert (Et : t = firstn (length t - h) t ++ rev (firstn h t)).
      { rewrite <- (firstn_skipn (length t - h) t) at 1. f_equal. rewrite P at 2. rewrite skipn_rev. f_equal. f_equal. lia. }
      rewrite Et at 2. apply Permutation_app; [|rewrite <- !Permutation_rev; exact Ph].
      replace (length t - h)%nat with (h + (length t - h - h))%nat by lia.
      assert (Sp : forall l : list Z, firstn (h + (length t - h - h)) l = firstn h l ++ firstn (length t - h - h) (skipn h l)).
      { intros l. rewrite <- (firstn_skipn h l) at 1. rewrite firstn_app, firstn_firstn, Nat.min_r by lia. f_equal. rewrite firstn_length.
        destruct (le_lt_dec h (length l)); [f_equal; lia|]. rewrite (skipn_all2 l) by lia. rewrite !firstn_nil. reflexivity. }
      rewrite !Sp, Sk. apply Permutation_app_tail, Ph.
    + intros i Hi Ho. rewrite (nth_mirror c Y) by lia. rewrite L. fold h.
      destruct (Nat.ltb_spec i (length t - h)).
      * destruct (le_lt_dec h i); [apply Nm; lia|]. destruct Ho as [Ho|Ho]; [apply E; lia|].
        assert (i < n_protected c)%nat by lia. apply E; lia.
      * rewrite (rev_nth_pal t i P Hi). apply E. lia.
    + intros _. split.
      * apply (list_ext _ _ 0); [rewrite rev_length; reflexivity|]. rewrite (mirror_length c Y). intros i Hi. rewrite rev_nth by (rewrite (mirror_length c Y); exact Hi).
        rewrite (mirror_length c Y). replace (length s - Datatypes.S i)%nat with (length s - 1 - i)%nat by lia. symmetry. apply (mirror_pal c Y), Hi.
      * intros O. assert (length t mod 2 = 1)%nat by tauto. fold h. rewrite (nth_mirror c Y) by lia. rewrite L. fold h.
        destruct (Nat.ltb_spec h (length t - h)); [apply Nm; lia|lia].
  - rewrite mirror_asym by exact Y. constructor; [exact Pm| |congruence]. intros i Hi Ho. apply E. lia.
Qed.

Lemma reordered_refl c t : (sym c = true -> t = rev t) -> reordered c t t.
Proof. intros P. constructor; [apply Permutation_refl|reflexivity|]. intros Y. split; [apply P, Y|reflexivity]. Qed.
Lemma reordered_trans c t u v : reordered c t u -> reordered c u v -> reordered c t v.
Proof.
  intros [P1 O1 S1] [P2 O2 S2]. pose proof (Permutation_length P1) as L. rewrite L in *. constructor.
  - etransitivity; eassumption.
  - intros i Hi Ho. rewrite O2, O1 by assumption. reflexivity.
  - intros Y. destruct (S1 Y) as [_ M1], (S2 Y) as [R2 M2]. split; [exact R2|]. intros O. rewrite M2, M1 by exact O. reflexivity.
Qed.

(** Moving single plies (with the tests, repair_flexural_2, or without, repair_flexural_3)
    keeps the plies of each angle, the protected plies, the symmetry and the middle ply, and
    never worsens the out-of-plane objective. *)
Theorem C36_flexural_shift c cos_sin coeffs target checked n_D2 t t' :
  (sym c = true -> t = rev t) -> (oop_objective cos_sin coeffs target t <= 10000000000)%Q ->
  repair_flexural_shift c cos_sin coeffs target checked n_D2 t = Ok t' ->
  reordered c t t' /\ (oop_objective cos_sin coeffs target t' <= oop_objective cos_sin coeffs target t)%Q.
Proof.
  intros P B H. unfold repair_flexural_shift in H. destruct (known _ _); [|discriminate].
  destruct (shift_loop _ _ _ _ _ _ _ _ _ _) as [s|] eqn:E; [|discriminate]. cbn [bind] in H. injection H as <-.
  rewrite <- (objD_spec c _ _ _ t P) in B. apply pass_kept in E; [|exact B]. destruct E as [K O].
  pose proof (kept_reordered c t s P K) as R. split; [exact R|].
  rewrite <- !(objD_spec c); [|exact P|intros Y; apply (ro_sym _ _ _ R Y)]. rewrite objD_mirror. exact O.
Qed.


(** the laminate without d plies on each side *)
Definition core (d : nat) (t : list Z) : list Z := slice d (length t - d) t.
Lemma diso_core c d t : Forall angle_ok t -> (diso_stack (delta_angle c) (core d t) <-> pairs_ok c d (length t - d) t).
Proof.
  intros A. unfold diso_stack, pairs_ok, pair_ok, core. rewrite Forall_forall in A.
  assert (Le : length (slice d (length t - d) t) = (length t - d - d)%nat) by (apply slice_length; lia). split.
  - intros H k K1 K2. apply is_diso_spec; [apply A, nth_In; lia|apply A, nth_In; lia|]. apply H. apply adjacent_nth. exists (k - d)%nat. rewrite Le.
    split; [lia|]. rewrite !nth_slice by lia. split; f_equal; lia.
  - intros H x y Hxy. apply adjacent_nth in Hxy. destruct Hxy as (i & Hi & <- & <-). rewrite Le in Hi. rewrite !nth_slice by lia.
    apply is_diso_spec; [apply A, nth_In; lia|apply A, nth_In; lia|]. specialize (H (d + i)%nat ltac:(lia) ltac:(lia)). replace (d + Datatypes.S i)%nat with (d + i + 1)%nat by lia. exact H.
Qed.

Lemma pairs_mirror c d s : sym c = true -> (Nat.odd (length s) = false -> (d + 1 < length s - d)%nat -> 0 <= delta_angle c) ->
  pairs_ok c d (length s - length s / 2) s -> pairs_ok c d (length s - d) (mirror c s).
Proof.
  intros Y Ce P k K1 K2. pose proof (half_facts (length s)) as F. set (h := (length s / 2)%nat) in *. set (n := length s) in *.
  unfold pairs_ok, pair_ok in *. rewrite !(nth_mirror c Y) by (fold n; lia). fold n h.
  destruct (Nat.ltb_spec k (n - h)), (Nat.ltb_spec (k + 1) (n - h)).
  - apply P; lia.
  - destruct (Nat.eq_dec (n mod 2) 1) as [O|O].
    + rewrite is_diso_comm. replace (n - 1 - (k + 1))%nat with (k - 1)%nat by lia. replace k with (k - 1 + 1)%nat at 2 by lia. apply P; lia.
    + replace (n - 1 - (k + 1))%nat with k by lia. unfold is_diso. rewrite Z.sub_diag.
      assert (0 <= delta_angle c). { apply Ce; [|lia]. destruct (Nat.odd n) eqn:X; [|reflexivity]. exfalso. apply O. tauto. }
      destruct (Z.ltb_spec (delta_angle c) (Z.abs 0)); [cbn in *; lia|reflexivity].
  - lia.
  - rewrite is_diso_comm. replace (n - 1 - k)%nat with (n - 1 - (k + 1) + 1)%nat by lia. apply P; lia.
Qed.

(** With the tests (repair_flexural_2) disorientation and contiguity are kept: of the whole
    laminate (d = 0) and of the laminate without protected plies. *)
Theorem C36_flexural_shift_guidelines a c cos_sin coeffs target n_D2 t t' :
  mk_cons a = Ok c -> Forall angle_ok t -> (sym c = true -> t = rev t) -> (contig c = true -> (2 <= n_contig c <= 6)%nat) ->
  (oop_objective cos_sin coeffs target t <= 10000000000)%Q ->
  repair_flexural_2 c cos_sin coeffs target n_D2 t = Ok t' ->
  (diso c = true -> forall d, (d <= n_protected c)%nat -> diso_stack (delta_angle c) (core d t) -> diso_stack (delta_angle c) (core d t')) /\
  (contig c = true -> contig_stack (n_contig c) t -> contig_stack (n_contig c) t').
Proof.
  intros _ Al P Nc B H. unfold repair_flexural_2 in H. destruct (C36_flexural_shift _ _ _ _ _ _ _ _ P B H) as [R _].
  unfold repair_flexural_shift in H. destruct (known _ _); [|discriminate].
  destruct (shift_loop _ _ _ _ _ _ _ _ _ _) as [s|] eqn:E; [|discriminate]. cbn [bind] in H. injection H as <-.
  rewrite <- (objD_spec c _ _ _ t P) in B.
  pose proof (proj1 (pass_kept _ _ _ _ _ _ _ _ B E)) as K. pose proof (kept_length _ _ _ K) as L.
  assert (Al' : Forall angle_ok (mirror c s)). { rewrite Forall_forall in Al |- *. intros x Hx. apply Al. eapply Permutation_in; [apply R|exact Hx]. }
  split.
  - intros Di d Hd. rewrite !diso_core by assumption. rewrite (Permutation_length (ro_plies _ _ _ R)). intros Hp. rewrite <- fixed_spec in Hd.
    pose proof (pass_diso _ _ _ _ _ _ _ _ Di Hd B E) as W. cbn zeta in W. destruct (sym c) eqn:Y.
    + rewrite <- L in *. apply pairs_mirror; [exact Y| |].
      * intros O Hc. pose proof (half_facts (length s)) as F. set (h := (length s / 2)%nat) in *.
        assert (M : (length s mod 2 = 0)%nat) by (destruct F as (_ & F1 & F2); destruct (Nat.eq_dec (length s mod 2) 1) as [X|X]; [apply F2 in X; congruence|lia]).
        specialize (Hp (h - 1)%nat ltac:(lia) ltac:(lia)). unfold pair_ok in Hp. rewrite (rev_nth_pal t (h - 1) (P eq_refl)) in Hp by lia.
        replace (length t - 1 - (h - 1))%nat with (h - 1 + 1)%nat in Hp by lia. unfold is_diso in Hp. rewrite Z.sub_diag in Hp.
        destruct (Z.ltb_spec (delta_angle c) (Z.abs 0)) as [X|X]; [|cbn in X; lia].
        replace (180 + nth (h - 1 + 1) t 0 - nth (h - 1 + 1) t 0) with 180 in Hp by lia.
        destruct (Z.ltb_spec (delta_angle c) (Z.abs 180)); [|cbn in *; lia]. destruct (Z.ltb_spec (delta_angle c) (Z.abs (0 - 180))); [|cbn in *; lia]. cbn in Hp. discriminate.
      * apply W. intros k K1 K2. apply Hp; [exact K1|]. pose proof (half_facts (length s)) as F. lia.
    + rewrite mirror_asym by exact Y. rewrite <- L in *. apply W, Hp.
  - intros C. rewrite !contig_blk. intros Hc. apply (pass_contig _ _ _ _ Nc _ _ _ C B E).
    assert (Em : mirror c t = t).
    { destruct (sym c) eqn:Y; [|apply mirror_asym, Y]. specialize (P eq_refl). apply (list_ext _ _ 0); [apply mirror_length, Y|]. rewrite (mirror_length c Y). intros k Hk.
      rewrite (nth_mirror c Y) by exact Hk. destruct (Nat.ltb_spec k (length t - length t / 2)); [reflexivity|]. symmetry. apply rev_nth_pal; assumption. }
    rewrite Em. exact Hc.
Qed.

Lemma known_all c t k : Forall (fun x => In x (set_of_angles c)) t -> known c (if sym c then firstn k t else t) = true.
Proof.
  intros Al. unfold known. apply forallb_forall. intros x Hx.
  assert (Hi : In x t) by (destruct (sym c); [rewrite <- (firstn_skipn k t); apply in_or_app; left; exact Hx|exact Hx]).
  rewrite Forall_forall in Al. specialize (Al x Hi). unfold ind_angle. destruct (Z.eqb_spec x (-90)) as [E|E]; cbn [andb].
  - destruct (memb 90 (set_of_angles c)) eqn:M.
    + destruct (index_of 90 (set_of_angles c)) eqn:I; [reflexivity|]. apply index_of_none in I. exfalso. apply I. apply memb_true. exact M.
    + destruct (index_of x (set_of_angles c)) eqn:I; [reflexivity|]. apply index_of_none in I. contradiction.
  - destruct (index_of x (set_of_angles c)) eqn:I; [reflexivity|]. apply index_of_none in I. contradiction.
Qed.

(** The pass ends without an error when at least two positions are tried for every ply. *)
Theorem C36_flexural_shift_total c cos_sin coeffs target checked n_D2 t :
  (checked = true -> 2 <= n_D2)%nat -> (contig c = true -> (2 <= n_contig c <= 6)%nat) ->
  Forall (fun x => In x (set_of_angles c)) t -> (sym c = true -> t = rev t) -> (oop_objective cos_sin coeffs target t <= 10000000000)%Q ->
  exists t', repair_flexural_shift c cos_sin coeffs target checked n_D2 t = Ok t'.
Proof.
  intros N Nc Al P B. unfold repair_flexural_shift. rewrite known_all by exact Al. rewrite <- (objD_spec c _ _ _ t P) in B.
  destruct (shift_total c cos_sin coeffs target Nc checked n_D2 N (ind_2 c (length t)) 0 (objD c cos_sin coeffs target t) t B) as [s ->]. cbn [bind]. eauto.
Qed.

(** With n_D2 = 1 the pass with tests fails for every laminate with two plies that may move. *)
Theorem C36_flexural_one_position_refuted c cos_sin coeffs target t :
  Forall (fun x => In x (set_of_angles c)) t -> (2 * n_protected c + 4 <= length t)%nat ->
  repair_flexural_2 c cos_sin coeffs target 1 t = Err ValueError.
Proof.
  intros Al L. unfold repair_flexural_2, repair_flexural_shift. rewrite known_all by exact Al.
  assert (Hl : (2 <= length (ind_2 c (length t)))%nat).
  { unfold ind_2. rewrite fixed_spec. pose proof (half_facts (length t)) as F. destruct (sym c); [rewrite seq_length; lia|].
    rewrite skipn_length, interleave_length; rewrite rev_length, !seq_length; lia. }
  destruct (ind_2 c (length t)) as [|i [|j l]]; [cbn in Hl; lia|cbn in Hl; lia|]. reflexivity.
Qed.

(* ---------------- exchanging blocks of plies (repair_flexural_1) ---------------- *)
Lemma pal_from_half c (r : list Z) : sym c = true -> (forall k, (k < region c (length r))%nat -> nth (length r - 1 - k) r 0 = nth k r 0) -> r = rev r.
Proof.
  intros Y H. unfold region in H. rewrite Y in H. pose proof (half_facts (length r)) as F. apply (list_ext _ _ 0); [rewrite rev_length; reflexivity|]. intros k Hk. rewrite rev_nth by exact Hk.
  destruct (lt_dec k (length r / 2)) as [L|L].
  - replace (length r - Datatypes.S k)%nat with (length r - 1 - k)%nat by lia. symmetry. apply H. exact L.
  - destruct (lt_dec (length r - 1 - k) (length r / 2)) as [M|M].
    + specialize (H (length r - 1 - k)%nat M). replace (length r - 1 - (length r - 1 - k))%nat with k in H by lia. rewrite H. f_equal. lia.
    + f_equal. lia.
Qed.

Lemma swap_run c cos_sin coeffs target t t' : (sym c = true -> t = rev t) -> repair_flexural_1 c cos_sin coeffs target t = Ok t' ->
  exists l0 l, find_list_blocks c t = Ok l0 /\ good_swap c t l0 l t'.
Proof.
  intros P H. unfold repair_flexural_1 in H. destruct (known _ _); [|discriminate]. destruct (find_list_blocks c t) as [l0|] eqn:E; [|discriminate]. cbn [bind] in H.
  destruct (good_swap_run _ _ _ _ _ t P l0 E _ _ _ _ H) as [l W]. eauto.
Qed.

(** Exchanging blocks keeps the plies of each angle, and, in a symmetric laminate, the
    protected plies, the symmetry and the middle ply. *)
Theorem C36_flexural_swap c cos_sin coeffs target t t' :
  (sym c = true -> t = rev t) -> repair_flexural_1 c cos_sin coeffs target t = Ok t' ->
  Permutation t' t /\ (sym c = true \/ dam_tol c = false -> reordered c t t').
Proof.
  intros P H. destruct (swap_run _ _ _ _ _ _ P H) as (l0 & l & _ & W). pose proof (w_perm _ _ _ _ _ W) as Pm. pose proof (Permutation_length Pm) as L. split; [exact Pm|].
  intros D. destruct (sym c) eqn:Y.
  - assert (R : t' = rev t') by (apply (pal_from_half c); [exact Y|]; rewrite L; apply (w_pal _ _ _ _ _ W Y)).
    pose proof (half_facts (length t)) as F. constructor; [exact Pm| |].
    + intros i Hi Ho. rewrite <- fixed_spec in Ho.
      assert (G : forall k, (k < n_fixed c)%nat -> (k < length t - length t / 2)%nat -> nth k t' 0 = nth k t 0).
      { intros k K1 K2. destruct (lt_dec k (length t / 2)) as [X|X]; [apply (w_outer _ _ _ _ _ W Y k K1); unfold region; rewrite Y; exact X|apply (w_mid _ _ _ _ _ W Y); lia]. }
      destruct (lt_dec i (length t - length t / 2)) as [X|X]; [apply G; lia|].
      rewrite (rev_nth_pal t' i R), (rev_nth_pal t i (P eq_refl)) by lia. rewrite L. apply G; lia.
    + intros _. split; [exact R|]. intros O. apply (w_mid _ _ _ _ _ W Y). assert (length t mod 2 = 1)%nat by tauto. lia.
  - destruct D as [D|D]; [discriminate|]. constructor; [exact Pm| |congruence]. intros i Hi Ho. unfold n_protected in Ho. rewrite D in Ho. lia.
Qed.

(** Without a middle ply it keeps the boundaries of the blocks, so that the same plies are
    in contiguity, and disorientation. *)
Theorem C36_flexural_swap_blocks c cos_sin coeffs target t t' :
  (sym c = true -> t = rev t) -> (sym c = true -> Nat.odd (length t) = false) -> Forall angle_ok t ->
  repair_flexural_1 c cos_sin coeffs target t = Ok t' ->
  (forall i, (S i < length t)%nat -> (nth i t' 0 = nth (S i) t' 0 <-> nth i t 0 = nth (S i) t 0)) /\
  (forall nc, contig_stack nc t' <-> contig_stack nc t) /\
  (diso c = true -> diso_stack (delta_angle c) t -> diso_stack (delta_angle c) t').
Proof.
  intros P Ev Al H. destruct (swap_run _ _ _ _ _ _ P H) as (l0 & l & E & W). pose proof (w_perm _ _ _ _ _ W) as Pm. pose proof (Permutation_length Pm) as L.
  assert (O : odd_sym c t = false) by (unfold odd_sym; destruct (sym c); [rewrite (Ev eq_refl); reflexivity|reflexivity]).
  pose proof (half_facts (length t)) as F.
  assert (W0 := good_swap_0 c t P l0 E).
  assert (R : sym c = true -> t' = rev t') by (intros Y; apply (pal_from_half c); [exact Y|]; rewrite L; apply (w_pal _ _ _ _ _ W Y)).
  assert (Lo : forall k, (k + 1 < region c (length t))%nat -> (nth k t' 0 = nth (k + 1) t' 0 <-> nth k t 0 = nth (k + 1) t 0)).
  { intros k Hk. rewrite (proj1 (same_block c t P l0 E l t' k W O Hk)), (proj1 (same_block c t P l0 E l0 t k W0 O Hk)). reflexivity. }
  assert (Even : sym c = true -> (length t = 2 * (length t / 2))%nat).
  { intros Y. specialize (Ev Y). assert (length t mod 2 = 0)%nat; [|lia]. destruct F as (_ & F1 & F2). destruct (Nat.eq_dec (length t mod 2) 1) as [X|X]; [apply F2 in X; congruence|lia]. }
  assert (Pairs : forall i, (S i < length t)%nat -> (nth i t' 0 = nth (S i) t' 0 <-> nth i t 0 = nth (S i) t 0)).
  { intros i Hi. destruct (sym c) eqn:Y.
    - specialize (Even eq_refl). specialize (P eq_refl). specialize (R eq_refl). unfold region in Lo. rewrite Y in Lo.
      destruct (lt_dec (i + 1) (length t / 2)) as [X|X]; [specialize (Lo i X); rewrite Nat.add_1_r in Lo; exact Lo|].
      destruct (Nat.eq_dec (i + 1) (length t / 2)) as [X2|X2].
      + rewrite (rev_nth_pal t' i R), (rev_nth_pal t i P) by lia. rewrite L. replace (length t - 1 - i)%nat with (Datatypes.S i) by lia. tauto.
      + rewrite (rev_nth_pal t' i R), (rev_nth_pal t i P), (rev_nth_pal t' (Datatypes.S i) R), (rev_nth_pal t (Datatypes.S i) P) by lia. rewrite L.
        specialize (Lo (length t - 1 - Datatypes.S i)%nat ltac:(lia)). replace (length t - 1 - Datatypes.S i + 1)%nat with (length t - 1 - i)%nat in Lo by lia.
        split; intros Q; symmetry; symmetry in Q; apply Lo; exact Q.
    - unfold region in Lo. rewrite Y in Lo. specialize (Lo i ltac:(lia)). rewrite Nat.add_1_r in Lo. exact Lo. }
  split; [exact Pairs|]. split.
  - assert (G : forall u v : list Z, length u = length v -> (forall i, (S i < length v)%nat -> nth i u 0 = nth (S i) u 0 <-> nth i v 0 = nth (S i) v 0) -> forall nc k, blk nc v k -> blk nc u k).
    { intros u v Lu Pr nc k [B1 B2]. split; [lia|]. induction d as [|d IHd]; intros Hd; [rewrite Nat.add_0_r; reflexivity|]. rewrite <- IHd by lia. symmetry. replace (k + S d)%nat with (S (k + d)) by lia.
      apply Pr; [lia|]. rewrite (B2 d ltac:(lia)). replace (S (k + d))%nat with (k + S d)%nat by lia. symmetry. apply B2. lia. }
    intros nc. rewrite !contig_blk. split; intros X k B; apply (X k); revert B; apply G; auto; intros i Hi; rewrite L in Hi; symmetry; apply Pairs, Hi.
  - intros Di Ds. assert (Pt : pairs_ok c 0 (length t - 0) t) by (apply diso_core; [exact Al|]; unfold core; rewrite Nat.sub_0_r; unfold slice; rewrite Nat.sub_0_r; cbn [skipn]; rewrite firstn_all; exact Ds).
    assert (Al' : Forall angle_ok t') by (rewrite Forall_forall in Al |- *; intros x Hx; apply Al; eapply Permutation_in; [exact Pm|exact Hx]).
    rewrite Nat.sub_0_r in Pt.
    destruct (le_lt_dec (length t) 1) as [Sm|Bg]. { intros x y A. apply adjacent_nth in A. destruct A as (i & Hi & _). rewrite L in Hi. lia. }
    destruct (blocks_start c t P l0 E) as (G & Fi & _ & _ & Co & _ & Nx). pose proof (region_le c (length t)) as Rl.
    assert (Cm : compat c l0).
    { intros b b' Hb Hb' T. pose proof (g_in _ _ _ G b Hb) as [S1 B1]. pose proof (g_in _ _ _ G b' Hb') as [S2 B2]. destruct (Nx b b' Hb Hb' T) as [X|X].
      - rewrite <- (proj1 (Fi b Hb (b_first b' - 1)%nat ltac:(lia))), <- (proj1 (Fi b' Hb' (b_first b') ltac:(lia))).
        specialize (Pt (b_first b' - 1)%nat ltac:(lia) ltac:(lia)). unfold pair_ok in Pt. replace (b_first b' - 1 + 1)%nat with (b_first b') in Pt by lia. exact Pt.
      - rewrite <- (proj1 (Fi b' Hb' (b_first b - 1)%nat ltac:(lia))), <- (proj1 (Fi b Hb (b_first b) ltac:(lia))). rewrite is_diso_comm.
        specialize (Pt (b_first b - 1)%nat ltac:(lia) ltac:(lia)). unfold pair_ok in Pt. replace (b_first b - 1 + 1)%nat with (b_first b) in Pt by lia. exact Pt. }
    assert (Dl : 0 <= delta_angle c).
    { pose proof (Ds (nth 0 t 0) (nth 1 t 0)) as [k Hk]; [|lia]. apply adjacent_nth. exists 0%nat. auto. }
    assert (Lp : forall k, (k + 1 < region c (length t))%nat -> is_diso (nth k t' 0) (nth (k + 1) t' 0) (delta_angle c) = true).
    { intros k Hk. apply (same_block c t P l0 E l t' k W O Hk); assumption. }
    assert (Dc : forall a, is_diso a a (delta_angle c) = true).
    { intros a. unfold is_diso. rewrite Z.sub_diag. destruct (Z.ltb_spec (delta_angle c) (Z.abs 0)); [cbn in *; lia|reflexivity]. }
    intros x y A. apply adjacent_nth in A. destruct A as (i & Hi & <- & <-). rewrite L in Hi. rewrite Forall_forall in Al'.
    apply is_diso_spec; [apply Al', nth_In; lia|apply Al', nth_In; lia|]. destruct (sym c) eqn:Y.
    + specialize (Even eq_refl). specialize (R eq_refl). unfold region in Lp. rewrite Y in Lp.
      destruct (lt_dec (i + 1) (length t / 2)) as [X|X]; [specialize (Lp i X); rewrite Nat.add_1_r in Lp; exact Lp|].
      destruct (Nat.eq_dec (i + 1) (length t / 2)) as [X2|X2].
      * rewrite (rev_nth_pal t' i R) by lia. rewrite L. replace (length t - 1 - i)%nat with (Datatypes.S i) by lia. apply Dc.
      * rewrite (rev_nth_pal t' i R), (rev_nth_pal t' (Datatypes.S i) R) by lia. rewrite L. rewrite is_diso_comm.
        specialize (Lp (length t - 1 - Datatypes.S i)%nat ltac:(lia)). replace (length t - 1 - Datatypes.S i + 1)%nat with (length t - 1 - i)%nat in Lp by lia. exact Lp.
    + unfold region in Lp. rewrite Y in Lp. specialize (Lp i ltac:(lia)). rewrite Nat.add_1_r in Lp. exact Lp.
Qed.

(** The exchange of blocks ends without an error unless the laminate is empty, or is
    symmetric with a middle ply and has a single angle. *)
Lemma swap_loop_total c cos_sin coeffs target midply : forall is l lp obj ss, exists r, swap_loop c cos_sin coeffs target midply is l lp obj ss = Ok r.
Proof.
  induction is as [|i is IH]; intros l lp obj ss; cbn [swap_loop]; [eauto|]. destruct (status_dam_tol _ _ _); [apply IH|].
  destruct (possible_swaps c (length ss) i l) as [|j js]; [apply IH|].
  match goal with |- context [argmin ?o] => destruct (argmin_ok o ltac:(discriminate)) as (k & -> & _) end. cbn [bind].
  destruct (Qltb _ obj); [destruct (Qltb _ em10); [eauto|apply IH]|destruct (Qltb _ em10); [eauto|apply IH]].
Qed.
Lemma last_other_total ss mid k : (exists p, (p < k)%nat /\ nth p ss 0 <> mid) -> exists q, last_other ss mid k = Ok q.
Proof.
  intros (p & Hp & N). induction k as [|k IH]; [lia|]. cbn [last_other]. destruct (Z.eqb_spec (nth k ss 0) mid) as [E|E]; [|eauto].
  apply IH. destruct (Nat.eq_dec p k) as [->|]; [congruence|lia].
Qed.
Theorem C36_flexural_swap_total c cos_sin coeffs target t :
  Forall (fun x => In x (set_of_angles c)) t -> t <> [] -> (sym c = true -> t = rev t) ->
  (sym c = true -> Nat.odd (length t) = true -> exists x, In x t /\ x <> nth (length t / 2) t 0) ->
  exists t', repair_flexural_1 c cos_sin coeffs target t = Ok t'.
Proof.
  intros Al Ne P Ot. unfold repair_flexural_1. rewrite known_all by exact Al.
  assert (B : exists p, block_start c t = Ok p).
  { unfold block_start. assert (length t <> 0)%nat by (intros Z; apply length_zero_iff_nil in Z; contradiction).
    destruct (Nat.eqb_spec (length t) 0); [lia|]. destruct (sym c); [|eauto]. destruct (Nat.odd (length t)) eqn:O; [|eauto].
    destruct (Ot eq_refl eq_refl) as (x & Hx & Nx). apply (In_nth _ _ 0) in Hx. destruct Hx as (k & Hk & <-). apply last_other_total.
    pose proof (half_facts (length t)) as F. assert (length t mod 2 = 1)%nat by tauto.
    destruct (lt_dec k (length t / 2)) as [X|X]; [eauto|]. exists (length t - 1 - k)%nat. split.
    - destruct (Nat.eq_dec k (length t / 2)) as [->|]; [congruence|lia].
    - rewrite <- (rev_nth_pal t k (P eq_refl) Hk). exact Nx. }
  destruct B as [p B]. unfold find_list_blocks. rewrite B. cbn [bind]. apply swap_loop_total.
Qed.
Theorem C36_flexural_uniform_refuted c cos_sin coeffs target a m :
  sym c = true -> In a (set_of_angles c) -> Nat.odd m = true -> repair_flexural_1 c cos_sin coeffs target (repeat a m) = Err IndexError.
Proof.
  intros Y Ha O. unfold repair_flexural_1. rewrite known_all by (rewrite Forall_forall; intros x Hx; apply repeat_spec in Hx; subst; exact Ha).
  unfold find_list_blocks, block_start. rewrite repeat_length, Y, O.
  assert (E : forall k, (k <= m)%nat -> last_other (repeat a m) a k = Err IndexError).
  { induction k as [|k IH]; intros Hk; [reflexivity|]. cbn [last_other]. rewrite nth_repeat_lt by lia. rewrite Z.eqb_refl. apply IH. lia. }
  pose proof (half_facts m) as F. assert (m mod 2 = 1)%nat by tauto. rewrite nth_repeat_lt by lia. rewrite E by lia. reflexivity.
Qed.

(* ---------------- the whole refinement ---------------- *)
Lemma diso_whole d t : diso_stack d t <-> diso_stack d (core 0 t).
Proof. unfold core, slice. rewrite !Nat.sub_0_r. cbn [skipn]. rewrite firstn_all. reflexivity. Qed.

(** one round *)
Lemma round_ok c cos_sin coeffs target multi n_D2 t s :
  (sym c = true -> t = rev t) -> (forall u, Permutation u t -> oop_objective cos_sin coeffs target u <= 10000000000)%Q ->
  (if (diso c || contig c)%bool then
     do s1 <- repair_flexural_1 c cos_sin coeffs target t; do _ <- between c multi s1; repair_flexural_2 c cos_sin coeffs target n_D2 s1
   else repair_flexural_3 c cos_sin coeffs target n_D2 t) = Ok s ->
  Permutation s t /\ (sym c = true -> s = rev s) /\
  (sym c = true \/ dam_tol c = false \/ (diso c = false /\ contig c = false) -> reordered c t s) /\
  (diso c = false -> contig c = false -> oop_objective cos_sin coeffs target s <= oop_objective cos_sin coeffs target t)%Q.
Proof.
  intros P B H. destruct (diso c || contig c)%bool eqn:D.
  - destruct (repair_flexural_1 c cos_sin coeffs target t) as [s1|] eqn:E1; [|discriminate]. cbn [bind] in H.
    destruct (between c multi s1) as [[]|]; [|discriminate]. cbn [bind] in H.
    destruct (C36_flexural_swap _ _ _ _ _ _ P E1) as [Pm R].
    assert (P1 : sym c = true -> s1 = rev s1) by (intros Y; apply (ro_sym _ _ _ (R (or_introl Y)) Y)).
    destruct (C36_flexural_shift _ _ _ _ _ _ _ _ P1 (B s1 Pm) H) as [R2 _]. split; [rewrite <- Pm; apply R2|]. split; [intros Y; apply (ro_sym _ _ _ R2 Y)|]. split.
    + intros C. apply (reordered_trans c t s1 s); [|exact R2]. apply R. destruct C as [C|[C|[C1 C2]]]; auto. rewrite C1, C2 in D. discriminate.
    + intros C1 C2. rewrite C1, C2 in D. discriminate.
  - destruct (C36_flexural_shift _ _ _ _ _ _ _ _ P (B t (Permutation_refl t)) H) as [R O]. split; [apply R|]. split; [intros Y; apply (ro_sym _ _ _ R Y)|]. split; auto.
Qed.

(** The out-of-plane refinement changes only the order of the plies. In a symmetric laminate
    and whenever no outer ply is protected it keeps the outer plies, the symmetry and the
    middle ply; without disorientation and contiguity rules it never worsens the
    objective. *)
Theorem C36_flexural_partial c cos_sin coeffs target multi switch n_D2 n_D3 t t' :
  (sym c = true -> t = rev t) -> (forall u, Permutation u t -> oop_objective cos_sin coeffs target u <= 10000000000)%Q ->
  repair_flexural c cos_sin coeffs target multi switch n_D2 n_D3 t = Ok t' ->
  Permutation t' t /\ (sym c = true -> t' = rev t') /\
  (sym c = true \/ dam_tol c = false \/ (diso c = false /\ contig c = false) -> reordered c t t') /\
  (diso c = false -> contig c = false -> oop_objective cos_sin coeffs target t' <= oop_objective cos_sin coeffs target t)%Q.
Proof.
  intros P B H. unfold repair_flexural in H. destruct (switch && _)%bool.
  2: { injection H as <-. split; [apply Permutation_refl|]. split; [exact P|]. split; [intros _; apply reordered_refl, P|]. intros _ _. apply Qle_refl. }
  revert t P B H. induction n_D3 as [|k IH]; intros t P B H; cbn [flexural_loop] in H.
  { injection H as <-. split; [apply Permutation_refl|]. split; [exact P|]. split; [intros _; apply reordered_refl, P|]. intros _ _. apply Qle_refl. }
  match type of H with bind ?x _ = _ => destruct x as [s|] eqn:E; [|discriminate] end. cbn [bind] in H.
  apply round_ok in E; [|exact P|exact B]. destruct E as (Pm & P1 & R & O).
  destruct (IH s P1 ltac:(intros u Hu; apply B; rewrite <- Pm; exact Hu) H) as (Pm' & P1' & R' & O').
  split; [rewrite <- Pm; exact Pm'|]. split; [exact P1'|]. split; [intros C; apply (reordered_trans c t s t'); auto|].
  intros C1 C2. specialize (O C1 C2). specialize (O' C1 C2). lra.
Qed.

(** Without a middle ply the refinement keeps disorientation and contiguity. *)
Theorem C36_flexural_guidelines a c cos_sin coeffs target multi switch n_D2 n_D3 t t' :
  mk_cons a = Ok c -> (contig c = true -> (2 <= n_contig c <= 6)%nat) ->
  Forall angle_ok t -> (sym c = true -> t = rev t) -> (sym c = true -> Nat.odd (length t) = false) ->
  (forall u, Permutation u t -> oop_objective cos_sin coeffs target u <= 10000000000)%Q ->
  repair_flexural c cos_sin coeffs target multi switch n_D2 n_D3 t = Ok t' ->
  (diso c = true -> diso_stack (delta_angle c) t -> diso_stack (delta_angle c) t') /\
  (contig c = true -> contig_stack (n_contig c) t -> contig_stack (n_contig c) t').
Proof.
  intros Mk Nc Al P Ev B H. unfold repair_flexural in H. destruct (switch && _)%bool; [|injection H as <-; auto].
  revert t Al P Ev B H. induction n_D3 as [|k IH]; intros t Al P Ev B H; cbn [flexural_loop] in H; [injection H as <-; auto|].
  match type of H with bind ?x _ = _ => destruct x as [s|] eqn:E; [|discriminate] end. cbn [bind] in H.
  pose proof (round_ok _ _ _ _ _ _ _ _ P B E) as (Pm & P1 & _ & _).
  assert (Als : Forall angle_ok s) by (rewrite Forall_forall in Al |- *; intros x Hx; apply Al; eapply Permutation_in; [exact Pm|exact Hx]).
  assert (Evs : sym c = true -> Nat.odd (length s) = false) by (rewrite (Permutation_length Pm); exact Ev).
  destruct (IH s Als P1 Evs ltac:(intros u Hu; apply B; rewrite <- Pm; exact Hu) H) as [D' C'].
  destruct (diso c || contig c)%bool eqn:D.
  2: { apply orb_false_elim in D. destruct D as [D1 D2]. rewrite D1, D2. split; intros; discriminate. }
  destruct (repair_flexural_1 c cos_sin coeffs target t) as [s1|] eqn:E1; [|discriminate]. cbn [bind] in E.
  destruct (between c multi s1) as [[]|]; [|discriminate]. cbn [bind] in E.
  destruct (C36_flexural_swap _ _ _ _ _ _ P E1) as [Pm1 R].
  assert (Pl1 : sym c = true -> s1 = rev s1) by (intros Y; apply (ro_sym _ _ _ (R (or_introl Y)) Y)).
  assert (Al1 : Forall angle_ok s1) by (rewrite Forall_forall in Al |- *; intros x Hx; apply Al; eapply Permutation_in; [exact Pm1|exact Hx]).
  destruct (C36_flexural_swap_blocks _ _ _ _ _ _ P Ev Al E1) as (_ & Ct & Ds).
  destruct (C36_flexural_shift_guidelines _ _ _ _ _ _ _ _ Mk Al1 Pl1 Nc (B s1 Pm1) E) as [Dg Cg].
  split.
  - intros Di Hd. apply (D' Di). apply (proj2 (diso_whole _ _)). apply (Dg Di 0%nat); [lia|]. apply (proj1 (diso_whole _ _)). apply (Ds Di), Hd.
  - intros Ci Hc. apply (C' Ci), (Cg Ci), Ct, Hc.
Qed.

(* ---------------- the bound on the objective holds of all real data ---------------- *)
Lemma height_step n i : (S i <= n)%nat -> (height n (S i) <= height n i)%Q.
Proof.
  intros H. unfold height. assert (N : (0 < inject_Z (Z.of_nat n))%Q) by (change 0%Q with (inject_Z 0); rewrite <- Zlt_Qlt; lia).
  rewrite Nat2Z.inj_succ. unfold Z.succ. rewrite inject_Z_plus. set (x := inject_Z (Z.of_nat i)). set (y := inject_Z (Z.of_nat n)) in *.
  assert (E : (2 * (x + inject_Z 1) / y == 2 * x / y + 2 / y)%Q) by (change (inject_Z 1) with 1%Q; field; lra). rewrite E.
  assert (0 <= 2 / y)%Q by (apply Qle_shift_div_l; lra). lra.
Qed.
Lemma cube_mono (x y : Q) : (x <= y -> x ^ 3 <= y ^ 3)%Q.
Proof. intros H. 
  assert (E : (y ^ 3 - x ^ 3 == (y - x) * ((1 # 2) * (x + y) * (x + y) + (1 # 2) * x * x + (1 # 2) * y * y))%Q) by ring.
  assert (P : (0 <= (y - x) * ((1 # 2) * (x + y) * (x + y) + (1 # 2) * x * x + (1 # 2) * y * y))%Q) by (apply Qmult_le_0_compat; nra). lra.
Qed.

Lemma sum_bound (w f : nat -> Q) n : (forall i, (i < n)%nat -> w (S i) <= w i)%Q -> (forall i, -1 <= f i <= 1)%Q ->
  (- (w 0%nat - w n) <= sumQ (map (fun i => (w i - w (S i)) * f i) (seq 0 n)) <= w 0%nat - w n)%Q.
Proof.
  intros M F. induction n as [|n IH]; [change (sumQ (map _ (seq 0 0))) with 0%Q; lra|].
  specialize (IH ltac:(intros i Hi; apply M; lia)). rewrite seq_S, map_app, sumQ_app. cbn [map]. rewrite sumQ_cons. change (sumQ []) with 0%Q.
  specialize (M n ltac:(lia)). specialize (F n). cbn [Nat.add]. set (S0 := sumQ _) in *.
  assert (0 <= (w n - w (S n)) * (1 - f n))%Q by (apply Qmult_le_0_compat; lra).
  assert (0 <= (w n - w (S n)) * (1 + f n))%Q by (apply Qmult_le_0_compat; lra). lra.
Qed.
Lemma out_of_plane_bound cos_sin t k : (forall x i, -1 <= cos_sin x i <= 1)%Q -> (-1 <= out_of_plane cos_sin t k <= 1)%Q.
Proof.
  intros F. unfold out_of_plane. destruct t as [|a t]; [cbn; lra|]. set (n := length (a :: t)).
  pose proof (sum_bound (fun i => height n i ^ 3)%Q (fun i => cos_sin (nth i (a :: t) 0) k) n) as H. cbv beta in H.
  assert (H0 : (height n 0 == 1)%Q) by (unfold height; change (inject_Z (Z.of_nat 0)) with 0%Q; field; apply qn_nz; cbn; lia).
  assert (Hn : (height n n == -1)%Q) by (unfold height; field; apply qn_nz; cbn; lia).
  assert (E0 : (height n 0 ^ 3 == 1)%Q) by (rewrite H0; reflexivity). assert (En : (height n n ^ 3 == -1)%Q) by (rewrite Hn; reflexivity).
  rewrite E0, En in H. destruct H as [H1 H2]; [intros i Hi; apply cube_mono, height_step; lia|intros; apply F|]. lra.
Qed.
(** Weights and targets of the code are at most 1: the objective of any laminate is at most
    16, so that the test against 1e10 in the code never matters. *)
Lemma oop_objective_bound cos_sin coeffs target t : (forall x i, -1 <= cos_sin x i <= 1)%Q -> (forall i, 0 <= coeffs i <= 1)%Q -> (forall i, -1 <= target i <= 1)%Q ->
  (oop_objective cos_sin coeffs target t <= 10000000000)%Q.
Proof.
  intros F W T. unfold oop_objective, in_plane_objective.
  assert (B : forall i, (coeffs i * ((out_of_plane cos_sin t i - target i) * (out_of_plane cos_sin t i - target i)) <= 4)%Q).
  { intros i. pose proof (out_of_plane_bound cos_sin t i F) as O. specialize (W i). specialize (T i). set (d := (out_of_plane cos_sin t i - target i)%Q) in *.
    assert (D : (-2 <= d <= 2)%Q) by (unfold d; lra). assert (0 <= d * d <= 4)%Q by (split; nra). nra. }
  pose proof (B 0%nat). pose proof (B 1%nat). pose proof (B 2%nat). pose proof (B 3%nat). lra.
Qed.

(* ---------------- what the refinement does not keep ---------------- *)
Definition weights (l : list Q) : vec := fun i => nth i l 0%Q.
(** the target is the out-of-plane lamination parameters of some laminate *)
Definition reachable (target : vec) : Prop := exists u, forall i, (i < 4)%nat -> (target i == out_of_plane cos_sin_4 u i)%Q.
Ltac reached u := exists u; intros i Hi; do 4 (destruct i as [|i]; [vm_compute; reflexivity|]); lia.
(** exchanging two blocks of an asymmetric laminate can worsen the objective: the moments of
    the plies are taken one position off *)
Theorem C36_flexural_swap_objective_refuted :
  ~ (forall a c target t t', mk_cons a = Ok c -> reachable target -> Forall angle_ok t -> (sym c = true -> t = rev t) ->
       repair_flexural_1 c cos_sin_4 (weight 2) target t = Ok t' ->
       oop_objective cos_sin_4 (weight 2) target t' <= oop_objective cos_sin_4 (weight 2) target t)%Q.
Proof.
  intros H. destruct (mk_cons (args_rd false false false 0 2)) as [c|] eqn:E; [|vm_compute in E; discriminate].
  specialize (H _ c (weights [5 # 16; 1 # 8; -7 # 16; 0]%Q) [0; 45; -45; 90] [0; 90; -45; 45] E).
  vm_compute in E. injection E as <-. match type of H with context [repair_flexural_1 ?c] => set (k := c) in H | context [repair_flexural ?c] => set (k := c) in H end. assert (X : Forall angle_ok [0; 45; -45; 90]) by (repeat constructor; unfold angle_ok; lia).
  specialize (H ltac:(reached [0; 90; 90; -45]) X ltac:(discriminate) ltac:(vm_compute; reflexivity)). rewrite <- !(objD_spec k) in H by discriminate. vm_compute in H. congruence.
Qed.
(** the same for a symmetric laminate *)
Theorem C36_flexural_swap_objective_symmetric_refuted :
  ~ (forall a c target t t', mk_cons a = Ok c -> sym c = true -> Forall angle_ok t -> t = rev t -> contig_stack (n_contig c) t ->
       (forall i, -1 <= target i <= 1)%Q ->
       repair_flexural_1 c cos_sin_4 (weight 0) target t = Ok t' ->
       oop_objective cos_sin_4 (weight 0) target t' <= oop_objective cos_sin_4 (weight 0) target t)%Q.
Proof.
  intros H. destruct (mk_cons (args_rd true false false 0 5)) as [c|] eqn:E; [|vm_compute in E; discriminate].
  set (t := let h := [0; 90; 45; 45; 45; 0; -45; -45; -45; -45; -45; 45] in h ++ rev h).
  set (t' := let h := [45; 0; 45; 45; 45; 90; -45; -45; -45; -45; -45; 0] in h ++ rev h).
  specialize (H _ c (fun i => if Nat.eqb i 0 then -79 # 3456 else 0)%Q t t' E).
  vm_compute in E. injection E as <-. match type of H with context [repair_flexural_1 ?c] => set (k := c) in H | context [repair_flexural ?c] => set (k := c) in H end. assert (X : Forall angle_ok t) by (repeat constructor; unfold angle_ok; lia).
  assert (N : (2 <= 5 <= 6)%nat) by lia. destruct (is_contig_spec 5 t N) as (b & E1 & S1). vm_compute in E1. injection E1 as <-.
  specialize (H eq_refl X ltac:(reflexivity) (proj1 S1 eq_refl) ltac:(intros i; destruct (Nat.eqb i 0); lra) ltac:(vm_compute; reflexivity)). rewrite <- !(objD_spec k) in H by reflexivity. vm_compute in H. congruence.
Qed.
(** the whole refinement, with the default parameters, on an asymmetric laminate that
    satisfies disorientation and contiguity *)
Theorem C36_flexural_objective_refuted :
  ~ (forall a c target t t', mk_cons a = Ok c -> reachable target -> Forall angle_ok t -> (sym c = true -> t = rev t) ->
       diso_stack (delta_angle c) t -> contig_stack (n_contig c) t ->
       repair_flexural c cos_sin_4 (weight 0) target true true 10 1 t = Ok t' ->
       oop_objective cos_sin_4 (weight 0) target t' <= oop_objective cos_sin_4 (weight 0) target t)%Q.
Proof.
  intros H. destruct (mk_cons (args_rd false false true 0 2)) as [c|] eqn:E; [|vm_compute in E; discriminate].
  set (t := [90; 90; 45; 0; 45; 90]). specialize (H _ c (weights [-37 # 54; 4 # 9; 1 # 54; 0]%Q) t [90; 90; 45; 90; 45; 0] E).
  vm_compute in E. injection E as <-. match type of H with context [repair_flexural_1 ?c] => set (k := c) in H | context [repair_flexural ?c] => set (k := c) in H end. assert (X : Forall angle_ok t) by (repeat constructor; unfold angle_ok; lia).
  assert (N : (2 <= 2 <= 6)%nat) by lia. destruct (is_contig_spec 2 t N) as (b & E1 & S1). vm_compute in E1. injection E1 as <-.
  destruct (is_diso_ss_off t 45 X) as (b & E2 & S2). vm_compute in E2. injection E2 as <-.
  specialize (H ltac:(reached [90; 45; 45; 0; -45; 90]) X ltac:(discriminate) (proj1 S2 eq_refl) (proj1 S1 eq_refl) ltac:(vm_compute; reflexivity)). rewrite <- !(objD_spec k) in H by discriminate. vm_compute in H. congruence.
Qed.
(** the whole refinement can move the protected outer plies of an asymmetric laminate *)
Theorem C36_flexural_outer_refuted :
  ~ (forall a c target t t', mk_cons a = Ok c -> reachable target -> Forall angle_ok t -> (sym c = true -> t = rev t) ->
       repair_flexural c cos_sin_4 (weight 0) target true true 10 1 t = Ok t' -> reordered c t t').
Proof.
  intros H. destruct (mk_cons (args_rd false true false 1 2)) as [c|] eqn:E; [|vm_compute in E; discriminate].
  set (t := [-45; 90; -45; -45; 0; 0; 90; 45; 45]).
  specialize (H _ c (weights [158 # 729; -413 # 729; -227 # 729; 0]%Q) t [-45; 90; -45; -45; 45; 45; 90; 0; 0] E).
  vm_compute in E. injection E as <-. assert (X : Forall angle_ok t) by (repeat constructor; unfold angle_ok; lia).
  specialize (H ltac:(reached [-45; 45; 45; -45; 45; 45; 0; 0; -45]) X ltac:(discriminate) ltac:(vm_compute; reflexivity)). destruct H as [_ O _].
  specialize (O 8%nat ltac:(cbn; lia) ltac:(right; vm_compute; lia)). discriminate O.
Qed.
(** with a middle ply the exchange of blocks can break contiguity *)
Theorem C36_flexural_swap_contig_refuted :
  ~ (forall a c coeffs target t t', mk_cons a = Ok c -> reachable target -> Forall angle_ok t -> (sym c = true -> t = rev t) -> contig c = true ->
       repair_flexural_1 c cos_sin_4 coeffs target t = Ok t' ->
       contig_stack (n_contig c) t -> contig_stack (n_contig c) t').
Proof.
  intros H. destruct (mk_cons (args_rd true false false 0 2)) as [c|] eqn:E; [|vm_compute in E; discriminate].
  set (t := [-45; 90; 0; 45; 90; 45; 0; 90; -45]).
  specialize (H _ c (weights [1; 1; 0; 0]%Q) (weights [287 # 729; 241 # 729; 64 # 243; 0]%Q) t [0; 45; -45; 90; 90; 90; -45; 45; 0] E).
  vm_compute in E. injection E as <-. assert (X : Forall angle_ok t) by (repeat constructor; unfold angle_ok; lia).
  specialize (H ltac:(reached [0; 45; 90; -45; 90; -45; 90; 45; 0]) X ltac:(reflexivity) eq_refl ltac:(vm_compute; reflexivity)). cbn [n_contig] in H.
  assert (N : (2 <= 2 <= 6)%nat) by lia.
  destruct (is_contig_spec 2 t N) as (b1 & E1 & S1). destruct (is_contig_spec 2 [0; 45; -45; 90; 90; 90; -45; 45; 0] N) as (b2 & E2 & S2).
  vm_compute in E1, E2. injection E1 as <-. injection E2 as <-. specialize (H (proj1 S1 eq_refl)). apply S2 in H. discriminate.
Qed.

(* ---------------- hypotheses are met by laminates that change ---------------- *)
Lemma cos_sin_4_bound x i : (-1 <= cos_sin_4 x i <= 1)%Q.
Proof. unfold cos_sin_4. destruct i as [|[|[|i]]]; repeat match goal with |- context [if ?b then _ else _] => destruct b end; lra. Qed.
(** [C36_flexural_partial], [C36_flexural_guidelines]: protected plies, disorientation and
    contiguity; the plies inside move *)
Example C36_flexural_example : exists c, mk_cons (args_rd true true true 2 2) = Ok c /\
  let t := [45; -45; 90; 45; 0; -45; 0; 0; -45; 0; 45; 90; -45; 45] in
  let target := weights [43 # 343; -181 # 343; 6 # 343; 0]%Q in
  (contig c = true -> (2 <= n_contig c <= 6)%nat) /\ Forall angle_ok t /\ (sym c = true -> t = rev t) /\ (sym c = true -> Nat.odd (length t) = false) /\
  (forall u, Permutation u t -> oop_objective cos_sin_4 (weights [1; 1; 0; 0]%Q) target u <= 10000000000)%Q /\
  repair_flexural c cos_sin_4 (weights [1; 1; 0; 0]%Q) target true true 10 1 t = Ok [45; -45; 90; 45; 0; 0; -45; -45; 0; 0; 45; 90; -45; 45].
Proof.
  destruct (mk_cons (args_rd true true true 2 2)) as [c|] eqn:E; [|vm_compute in E; discriminate].
  exists c. split; [reflexivity|]. vm_compute in E. injection E as <-. cbv zeta.
  split; [cbn; lia|]. split; [repeat constructor; unfold angle_ok; lia|]. split; [reflexivity|]. split; [reflexivity|]. split; [|vm_compute; reflexivity].
  intros u _. apply oop_objective_bound; [apply cos_sin_4_bound| |];
    intros i; unfold weights; do 4 (destruct i as [|i]; [cbn; lra|]); destruct i; cbn; lra.
Qed.
(** [C36_flexural_swap], [C36_flexural_swap_blocks]: blocks are exchanged *)
Example C36_flexural_swap_example : exists c, mk_cons (args_rd true false true 0 2) = Ok c /\ let t := [90; 45; 0; 0; 45; 90] in
  Forall angle_ok t /\ (sym c = true -> t = rev t) /\ (sym c = true -> Nat.odd (length t) = false) /\
  repair_flexural_1 c cos_sin_4 (weights [1; 1; 0; 0]%Q) (weights [2 # 3; 13 # 27; 7 # 27; 0]%Q) t = Ok [0; 45; 90; 90; 45; 0].
Proof.
  destruct (mk_cons (args_rd true false true 0 2)) as [c|] eqn:E; [|vm_compute in E; discriminate].
  exists c. split; [reflexivity|]. vm_compute in E. injection E as <-. cbv zeta.
  split; [repeat constructor; unfold angle_ok; lia|]. split; [reflexivity|]. split; [reflexivity|]. vm_compute. reflexivity.
Qed.
(** [C36_flexural_shift], [C36_flexural_shift_guidelines], [C36_flexural_shift_total] *)
Example C36_flexural_shift_example : exists c, mk_cons (args_rd true true true 2 3) = Ok c /\
  let t := [45; -45; 90; 90; 90; 45; 0; 45; 0; 0; 45; 0; 45; 90; 90; 90; -45; 45] in let w := weights [1; 1; 0; 0]%Q in let target := weights [1; 1; 0; 0]%Q in
  (contig c = true -> (2 <= n_contig c <= 6)%nat) /\ Forall (fun x => In x (set_of_angles c)) t /\ (sym c = true -> t = rev t) /\
  (oop_objective cos_sin_4 w target t <= 10000000000)%Q /\
  repair_flexural_2 c cos_sin_4 w target 10 t = Ok [45; -45; 90; 90; 90; 45; 0; 0; 45; 45; 0; 0; 45; 90; 90; 90; -45; 45].
Proof.
  destruct (mk_cons (args_rd true true true 2 3)) as [c|] eqn:E; [|vm_compute in E; discriminate].
  exists c. split; [reflexivity|]. vm_compute in E. injection E as <-. cbv zeta.
  split; [cbn; lia|]. split; [repeat (constructor; [cbn; tauto|]); constructor|]. split; [reflexivity|]. split; [|vm_compute; reflexivity].
  apply oop_objective_bound; [apply cos_sin_4_bound| |]; intros i; unfold weights; do 4 (destruct i as [|i]; [cbn; lra|]); destruct i; cbn; lra.
Qed.

(** For a single laminate the code tests the laminate between the two steps: whatever the
    input, a returned laminate satisfies contiguity and disorientation. *)
Theorem C36_flexural_single_panel a c cos_sin coeffs target n_D2 n_D3 t t' :
  mk_cons a = Ok c -> (contig c = true -> (2 <= n_contig c <= 6)%nat) ->
  Forall angle_ok t -> (sym c = true -> t = rev t) ->
  (forall u, Permutation u t -> oop_objective cos_sin coeffs target u <= 10000000000)%Q ->
  no_coeffs coeffs = false -> (1 <= n_D3)%nat ->
  repair_flexural c cos_sin coeffs target false true n_D2 n_D3 t = Ok t' ->
  (contig c = true -> contig_stack (n_contig c) t') /\
  (diso c = true -> dam_tol c = false -> diso_stack (delta_angle c) t').
Proof.
  intros Mk Nc Al P B W N H. unfold repair_flexural, no_coeffs_D in H. rewrite W in H. cbn [andb negb] in H.
  assert (G : forall k t, Forall angle_ok t -> (sym c = true -> t = rev t) ->
    (forall u, Permutation u t -> oop_objective cos_sin coeffs target u <= 10000000000)%Q ->
    (contig c = true -> contig_stack (n_contig c) t) /\ (diso c = true -> dam_tol c = false -> diso_stack (delta_angle c) t) \/ (1 <= k)%nat ->
    flexural_loop c cos_sin coeffs target false n_D2 k t = Ok t' ->
    (contig c = true -> contig_stack (n_contig c) t') /\ (diso c = true -> dam_tol c = false -> diso_stack (delta_angle c) t')).
  2: { apply (G n_D3 t Al P B (or_intror N) H). }
  clear t Al P B H N. induction k as [|k IH]; intros t Al P B D H; cbn [flexural_loop] in H.
  { injection H as <-. destruct D as [D|D]; [exact D|lia]. }
  match type of H with bind ?x _ = _ => destruct x as [s|] eqn:E; [|discriminate] end. cbn [bind] in H.
  pose proof (round_ok _ _ _ _ _ _ _ _ P B E) as (Pm & P1 & _ & _).
  assert (Als : Forall angle_ok s) by (rewrite Forall_forall in Al |- *; intros x Hx; apply Al; eapply Permutation_in; [exact Pm|exact Hx]).
  apply (IH s Als P1 ltac:(intros u Hu; apply B; rewrite <- Pm; exact Hu)); [left|exact H].
  destruct (diso c || contig c)%bool eqn:Dc.
  2: { apply orb_false_elim in Dc. destruct Dc as [D1 D2]. rewrite D1, D2. split; intros; discriminate. }
  destruct (repair_flexural_1 c cos_sin coeffs target t) as [s1|] eqn:E1; [|discriminate]. cbn [bind] in E.
  destruct (between c false s1) as [[]|] eqn:Bt; [|discriminate]. cbn [bind] in E.
  destruct (C36_flexural_swap _ _ _ _ _ _ P E1) as [Pm1 R].
  assert (Pl1 : sym c = true -> s1 = rev s1) by (intros Y; apply (ro_sym _ _ _ (R (or_introl Y)) Y)).
  assert (Al1 : Forall angle_ok s1) by (rewrite Forall_forall in Al |- *; intros x Hx; apply Al; eapply Permutation_in; [exact Pm1|exact Hx]).
  destruct (C36_flexural_shift_guidelines _ _ _ _ _ _ _ _ Mk Al1 Pl1 Nc (B s1 Pm1) E) as [Dg Cg].
  unfold between in Bt. match type of Bt with bind ?x _ = _ => destruct x as [[]|] eqn:Bd; [|discriminate] end. cbn [bind] in Bt.
  split.
  - intros Ci. apply (Cg Ci). rewrite Ci in Bt. unfold check in Bt. destruct (is_contig_spec (n_contig c) s1 (Nc Ci)) as (b & Eb & Sb). rewrite Eb in Bt. cbn [bind] in Bt.
    destruct b; [apply Sb; reflexivity|discriminate].
  - intros Di Dt. apply (proj2 (diso_whole _ _)). apply (Dg Di 0%nat); [lia|]. apply (proj1 (diso_whole _ _)). rewrite Di in Bd. unfold check in Bd. rewrite Dt in Bd.
    destruct (is_diso_ss_off s1 (delta_angle c) Al1) as (b & Eb & Sb). unfold is_diso_ss in Eb. unfold is_diso_ss in Bd. rewrite Eb in Bd. cbn [bind] in Bd.
    destruct b; [apply Sb; reflexivity|discriminate].
Qed.
Print Assumptions C36_flexural_shift.
Print Assumptions C36_flexural_shift_guidelines.
Print Assumptions C36_flexural_shift_total.
Print Assumptions C36_flexural_one_position_refuted.
Print Assumptions C36_flexural_swap.
Print Assumptions C36_flexural_swap_blocks.
Print Assumptions C36_flexural_swap_total.
Print Assumptions C36_flexural_uniform_refuted.
Print Assumptions C36_flexural_partial.
Print Assumptions C36_flexural_guidelines.
Print Assumptions C36_flexural_swap_objective_refuted.
Print Assumptions C36_flexural_swap_objective_symmetric_refuted.
Print Assumptions C36_flexural_objective_refuted.
Print Assumptions C36_flexural_outer_refuted.
Print Assumptions C36_flexural_swap_contig_refuted.
Print Assumptions C36_flexural_single_panel.
