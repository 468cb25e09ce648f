(* MomentsProofs.v - proofs about ply order, moments of area and lamination parameters. *)
From Coq Require Import Lqa.
From Verif Require Import Base Uniq Divers DiversProofs Spacing SpacingProofs Strip Format FormatProofs Divide DivideProofs Moments.
Local Open Scope Z_scope.

(* ------------------------------------------------------------------ *)
(** * Finite sums of rationals *)
Fixpoint Qsum (n : nat) (F : nat -> Q) : Q :=
  match n with O => 0%Q | S m => (Qsum m F + F m)%Q end.

Lemma Qsum_ext n F G : (forall i, (i < n)%nat -> (F i == G i)%Q) -> (Qsum n F == Qsum n G)%Q.
Proof.
  induction n as [|n IH]; intros H; cbn [Qsum]; [reflexivity|].
  rewrite IH by (intros; apply H; lia). rewrite (H n) by lia; reflexivity.
Qed.

Lemma Qsum_plus n F G : (Qsum n (fun i => F i + G i) == Qsum n F + Qsum n G)%Q.
Proof. induction n as [|n IH]; cbn [Qsum]; [reflexivity|]. rewrite IH; ring. Qed.

Lemma Qsum_scale n c F : (Qsum n (fun i => c * F i) == c * Qsum n F)%Q.
Proof. induction n as [|n IH]; cbn [Qsum]; [ring|]. rewrite IH; ring. Qed.

Lemma Qsum_split m k F : (Qsum (m + k) F == Qsum m F + Qsum k (fun i => F (m + i)%nat))%Q.
Proof.
  induction k as [|k IH]; cbn [Qsum].
  - rewrite Nat.add_0_r; ring.
  - replace (m + S k)%nat with (S (m + k)) by lia; cbn [Qsum]; rewrite IH; ring.
Qed.

Lemma Qsum_front n F : (Qsum (S n) F == F 0%nat + Qsum n (fun i => F (S i)))%Q.
Proof.
  replace (S n) with (1 + n)%nat by lia; rewrite Qsum_split; cbn [Qsum].
  rewrite Qplus_0_l; reflexivity.
Qed.

Lemma Qsum_rev n F : (Qsum n F == Qsum n (fun i => F (n - 1 - i)%nat))%Q.
Proof.
  induction n as [|n IH]; [reflexivity|].
  rewrite Qsum_front with (F := fun i => F (S n - 1 - i)%nat).
  cbn [Qsum]; rewrite IH.
  replace (S n - 1 - 0)%nat with n by lia.
  rewrite (Qsum_ext n (fun i => F (S n - 1 - S i)%nat) (fun i => F (n - 1 - i)%nat)).
  - ring.
  - intros i Hi; replace (S n - 1 - S i)%nat with (n - 1 - i)%nat by lia; reflexivity.
Qed.

Lemma Qsum_tele n g : (Qsum n (fun i => g (S i) - g i) == g n - g 0%nat)%Q.
Proof. induction n as [|n IH]; cbn [Qsum]; [ring|]. rewrite IH; ring. Qed.

Lemma sumQ_app l m : (sumQ (l ++ m) == sumQ l + sumQ m)%Q.
Proof.
  induction l as [|a l IH].
  - change (sumQ [] + sumQ m)%Q with (0 + sumQ m)%Q. rewrite Qplus_0_l; reflexivity.
  - change (a + sumQ (l ++ m) == (a + sumQ l) + sumQ m)%Q. rewrite IH; ring.
Qed.

Lemma sumQ_perm l m : Permutation l m -> (sumQ l == sumQ m)%Q.
Proof.
  induction 1.
  - reflexivity.
  - change (x + sumQ l == x + sumQ l')%Q. rewrite IHPermutation; reflexivity.
  - change (y + (x + sumQ l) == x + (y + sumQ l))%Q. ring.
  - etransitivity; eauto.
Qed.

Lemma sumQ_map_seq F : forall n s, (sumQ (map F (seq s n)) == Qsum n (fun i => F (s + i)%nat))%Q.
Proof.
  intros n s; induction n as [|n IH]; [reflexivity|].
  rewrite seq_S, map_app, sumQ_app, IH. cbn [Qsum map].
  change (sumQ [F (s + n)%nat]) with (F (s + n)%nat + 0)%Q. ring.
Qed.

(* ------------------------------------------------------------------ *)
(** * Ply order *)
Lemma interleave_perm {A} (a : list A) : forall b, length a = length b \/ length a = S (length b) ->
  Permutation (interleave a b) (a ++ b).
Proof.
  induction a as [|x a IH]; intros [|y b] H; cbn in *; try lia; auto.
  - destruct a; cbn in *; [auto|lia].
  - constructor. rewrite IH by lia. apply Permutation_middle.
Qed.

Lemma interleave_length {A} (a : list A) : forall b, length a = length b \/ length a = S (length b) ->
  length (interleave a b) = (length a + length b)%nat.
Proof. intros b H; rewrite (Permutation_length (interleave_perm a b H)), app_length; reflexivity. Qed.

Lemma nth_empty {A} (d : A) k : nth k [] d = d.
Proof. destruct k; reflexivity. Qed.

Lemma interleave_nth {A} (d : A) a : forall b k, length a = length b \/ length a = S (length b) ->
  nth k (interleave a b) d = if Nat.even k then nth (k / 2) a d else nth (k / 2) b d.
Proof.
  induction a as [|x a IH]; intros b k H.
  - destruct b; cbn in H; [|lia]. cbn [interleave]. rewrite !nth_empty. destruct (Nat.even k); reflexivity.
  - destruct b as [|y b].
    + destruct a; cbn in H; [|lia].
      destruct k as [|[|k]]; auto.
      replace (S (S k) / 2)%nat with (S (k / 2)) by (replace (S (S k)) with (k + 1 * 2)%nat by lia; rewrite Nat.div_add by lia; lia).
      replace (nth (S (S k)) (interleave [x] []) d) with d by reflexivity. change (nth (S (k / 2)) [x] d) with (nth (k / 2) [] d). rewrite !nth_empty. destruct (Nat.even _); reflexivity.
    + destruct k as [|[|k]]; auto.
      replace (S (S k) / 2)%nat with (S (k / 2)) by (replace (S (S k)) with (k + 1 * 2)%nat by lia; rewrite Nat.div_add by lia; lia).
      cbn [interleave nth Nat.even]. apply IH. cbn in H; lia.
Qed.

Lemma firstn_seq s n k : (k <= n)%nat -> firstn k (seq s n) = seq s k.
Proof.
  intros H. replace n with (k + (n - k))%nat by lia. rewrite seq_app, firstn_app, seq_length, Nat.sub_diag, firstn_O, app_nil_r.
  rewrite firstn_all2 by (rewrite seq_length; lia); reflexivity.
Qed.
Lemma skipn_seq s n k : (k <= n)%nat -> skipn k (seq s n) = seq (s + k) (n - k).
Proof.
  intros H. replace n with (k + (n - k))%nat at 1 by lia. rewrite seq_app, skipn_app, seq_length, Nat.sub_diag.
  rewrite skipn_all2 by (rewrite seq_length; lia); reflexivity.
Qed.

Lemma n_half_spec n : (n = 2 * n_half n \/ n = 2 * n_half n - 1)%nat /\ (n_half n <= n)%nat.
Proof.
  unfold n_half. pose proof (Nat.div_mod n 2 ltac:(lia)); pose proof (Nat.mod_upper_bound n 2 ltac:(lia)). lia.
Qed.

Lemma n_half_odd n : Nat.odd n = true -> n = (2 * n_half n - 1)%nat /\ (1 <= n_half n)%nat.
Proof.
  intros H. apply Nat.odd_spec in H; destruct H as [k ->].
  unfold n_half. replace (2 * k + 1)%nat with (1 + k * 2)%nat by lia.
  rewrite Nat.div_add, Nat.mod_add by lia. cbn [Nat.div Nat.modulo]. cbn. lia.
Qed.
Lemma n_half_even n : Nat.odd n = false -> n = (2 * n_half n)%nat.
Proof.
  intros H. assert (E : Nat.even n = true) by (rewrite <- Nat.negb_odd, H; reflexivity).
  apply Nat.even_spec in E; destruct E as [k ->].
  unfold n_half. replace (2 * k)%nat with (k * 2)%nat by lia.
  rewrite Nat.div_mul, Nat.mod_mul by lia. lia.
Qed.

Lemma ply_order_asym n : ply_order false n = interleave (seq 0 (n_half n)) (rev (seq (n_half n) (n - n_half n))).
Proof.
  destruct (n_half_spec n) as [_ H]. unfold ply_order.
  rewrite firstn_seq, skipn_seq by lia; reflexivity.
Qed.

Lemma ply_order_len n : let a := seq 0 (n_half n) in let b := rev (seq (n_half n) (n - n_half n)) in
  length a = length b \/ length a = S (length b).
Proof.
  cbv zeta. rewrite rev_length, !seq_length. destruct (n_half_spec n) as [[H|H] H']; lia.
Qed.

Lemma ply_order_perm n : Permutation (ply_order false n) (seq 0 n).
Proof.
  rewrite ply_order_asym, interleave_perm by apply ply_order_len.
  rewrite <- Permutation_rev. rewrite <- (Nat.add_0_l (n_half n)) at 2. rewrite <- seq_app.
  destruct (n_half_spec n) as [_ H]. replace (n_half n + (n - n_half n))%nat with n by lia; reflexivity.
Qed.

Lemma ply_order_nth n k d : (k < n)%nat ->
  nth k (ply_order false n) d = if Nat.even k then (k / 2)%nat else (n - 1 - k / 2)%nat.
Proof.
  intros H. rewrite ply_order_asym, interleave_nth by apply ply_order_len.
  pose proof (n_half_spec n) as [Hn Hm].
  pose proof (Nat.div_mod k 2 ltac:(lia)) as D; pose proof (Nat.mod_upper_bound k 2 ltac:(lia)).
  destruct (Nat.even k) eqn:E.
  - rewrite seq_nth; auto. apply Nat.even_spec in E; destruct E as [j ->].
    replace (2 * j / 2)%nat with j in * by (rewrite Nat.mul_comm, Nat.div_mul; lia). lia.
  - assert (O : Nat.odd k = true) by (rewrite <- Nat.negb_even, E; reflexivity).
    apply Nat.odd_spec in O; destruct O as [j ->].
    replace ((2 * j + 1) / 2)%nat with j in * by (rewrite Nat.add_comm, Nat.mul_comm, Nat.div_add by lia; reflexivity).
    rewrite rev_nth by (rewrite seq_length; lia).
    rewrite seq_length, seq_nth by lia. lia.
Qed.

(* ------------------------------------------------------------------ *)
(** * Positions of the interfaces *)
Lemma nz n : (1 <= n)%nat -> ~ (inject_Z (Z.of_nat n) == 0)%Q.
Proof. intros H E. unfold Qeq in E; cbn in E; lia. Qed.

Lemma pos_0 n : (pos n 0 == -1)%Q.
Proof. unfold pos. change (inject_Z (Z.of_nat 0)) with 0%Q. ring. Qed.

Lemma inj_nat_plus a b : (inject_Z (Z.of_nat (a + b)) == inject_Z (Z.of_nat a) + inject_Z (Z.of_nat b))%Q.
Proof. rewrite Nat2Z.inj_add, inject_Z_plus; reflexivity. Qed.

Lemma pos_mirror n i : (1 <= n)%nat -> (i <= n)%nat -> (pos n (n - i) == - pos n i)%Q.
Proof.
  intros Hn Hi. unfold pos.
  assert (E : (inject_Z (Z.of_nat n) == inject_Z (Z.of_nat (n - i)) + inject_Z (Z.of_nat i))%Q)
    by (rewrite <- inj_nat_plus; replace (n - i + i)%nat with n by lia; reflexivity).
  pose proof (nz n Hn) as Z.
  set (N := inject_Z (Z.of_nat n)) in *. set (I := inject_Z (Z.of_nat i)) in *.
  set (J := inject_Z (Z.of_nat (n - i))) in *.
  assert (EJ : (J == N - I)%Q) by lra. rewrite EJ. field. exact Z.
Qed.

Lemma pos_n n : (1 <= n)%nat -> (pos n n == 1)%Q.
Proof. intros H. replace n with (n - 0)%nat at 2 by lia. rewrite pos_mirror, pos_0 by lia. reflexivity. Qed.

Lemma pos_step n i : (1 <= n)%nat -> (pos n i < pos n (S i))%Q.
Proof.
  intros H. unfold pos. rewrite Nat2Z.inj_succ.
  replace (inject_Z (Z.succ (Z.of_nat i))) with (inject_Z (Z.of_nat i + 1)) by (f_equal; lia).
  rewrite inject_Z_plus. pose proof (nz n H).
  assert (P : (0 < (2 # 1) / inject_Z (Z.of_nat n))%Q).
  { apply Qlt_shift_div_l; [unfold Qlt; cbn; lia|]. lra. }
  change (inject_Z 1) with 1%Q. set (d := ((2 # 1) / inject_Z (Z.of_nat n))%Q) in *.
  rewrite Qmult_plus_distr_r, Qmult_1_r. lra.
Qed.

Lemma pos_mono n i j : (1 <= n)%nat -> (i <= j)%nat -> (pos n i <= pos n j)%Q.
Proof.
  intros H. induction 1; [lra|]. pose proof (pos_step n m H). lra.
Qed.

(** the middle of a laminate with an even ply count *)
Lemma pos_half n : (1 <= n)%nat -> Nat.odd n = false -> (pos n (n_half n) == 0)%Q.
Proof.
  intros H O. pose proof (n_half_even n O) as E.
  pose proof (pos_mirror n (n_half n) H ltac:(lia)) as M.
  replace (n - n_half n)%nat with (n_half n) in M by lia. lra.
Qed.

(* ------------------------------------------------------------------ *)
(** * Sums of the moments *)

(** half laminate: any function vanishing at 0 telescopes to minus its value at -1 *)
Lemma sym_tele (g : Q -> Q) n : (forall x y, x == y -> g x == g y)%Q -> (g 0 == 0)%Q -> (1 <= n)%nat ->
  (Qsum (n_half n) (fun i => g (pos_top_sym n i) - g (pos n i)) == - g (-1))%Q.
Proof.
  intros Hg G0 Hn. destruct (Nat.odd n) eqn:O.
  - destruct (n_half_odd n O) as [En Hm].
    destruct (n_half n) as [|m] eqn:Em; [lia|]. cbn [Qsum].
    rewrite (Qsum_ext m _ (fun i => g (pos n (S i)) - g (pos n i))%Q).
    + rewrite (Qsum_tele m (fun i => g (pos n i))).
      unfold pos_top_sym. rewrite O, Em. cbn [andb]. rewrite Nat.eqb_refl.
      rewrite (Hg _ _ (pos_0 n)), G0. ring.
    + intros i Hi. unfold pos_top_sym. rewrite O, Em.
      destruct (S i =? S m)%nat eqn:E; [apply Nat.eqb_eq in E; lia|]. reflexivity.
  - rewrite (Qsum_ext _ _ (fun i => g (pos n (S i)) - g (pos n i))%Q).
    + rewrite (Qsum_tele _ (fun i => g (pos n i))).
      rewrite (Hg _ _ (pos_0 n)), (Hg _ _ (pos_half n Hn O)), G0. ring.
    + intros i Hi. unfold pos_top_sym. rewrite O. reflexivity.
Qed.

Lemma full_tele (g : Q -> Q) n : (forall x y, x == y -> g x == g y)%Q -> (1 <= n)%nat ->
  (Qsum n (fun i => g (pos n (S i)) - g (pos n i)) == g 1 - g (-1))%Q.
Proof.
  intros Hg Hn. rewrite (Qsum_tele n (fun i => g (pos n i))).
  rewrite (Hg _ _ (pos_0 n)), (Hg _ _ (pos_n n Hn)). reflexivity.
Qed.

Lemma sum_sym_rows (f : nat -> mom) (p : mom -> Q) n :
  (sumQ (map p (map f (seq 0 n))) == Qsum n (fun i => p (f i)))%Q.
Proof. rewrite map_map, sumQ_map_seq. apply Qsum_ext; intros; cbn; reflexivity. Qed.

Lemma sum_asym_rows (f : nat -> mom) (p : mom -> Q) n :
  (sumQ (map p (map f (ply_order false n))) == Qsum n (fun i => p (f i)))%Q.
Proof.
  rewrite <- sum_sym_rows. apply sumQ_perm. apply Permutation_map, Permutation_map, ply_order_perm.
Qed.

(** bounds of the positions in the half laminate *)
Lemma half_pos n i : (1 <= n)%nat -> (i < n_half n)%nat -> (pos n i <= pos_top_sym n i /\ pos_top_sym n i <= 0)%Q.
Proof.
  intros Hn Hi. unfold pos_top_sym. destruct (Nat.odd n) eqn:O.
  - destruct (n_half_odd n O) as [En Hm].
    assert (B : forall j, (j < n_half n)%nat -> (pos n j <= 0)%Q).
    { intros j Hj. pose proof (pos_mirror n j Hn ltac:(lia)).
      pose proof (pos_mono n j (n - j) Hn ltac:(lia)). lra. }
    destruct (S i =? n_half n)%nat eqn:E; cbn [andb].
    + split; [apply B; lia | lra].
    + apply Nat.eqb_neq in E. split; [|apply B; lia]. pose proof (pos_step n i Hn); lra.
  - cbn [andb]. split; [pose proof (pos_step n i Hn); lra|].
    pose proof (pos_mono n (S i) (n_half n) Hn ltac:(lia)). pose proof (pos_half n Hn O). lra.
Qed.

(** x |-> x |x| *)
Definition ssq (x : Q) : Q := if Qle_bool 0 x then sq x else (- sq x)%Q.

Lemma Qle_bool_spec x y : reflect (x <= y)%Q (Qle_bool x y).
Proof. destruct (Qle_bool x y) eqn:E; constructor; [now apply Qle_bool_iff|]. intros H; apply Qle_bool_iff in H; congruence. Qed.

Lemma ssq_ext x y : (x == y)%Q -> (ssq x == ssq y)%Q.
Proof.
  intros E. unfold ssq. destruct (Qle_bool_spec 0 x), (Qle_bool_spec 0 y); unfold sq; rewrite ?E; try reflexivity; exfalso; lra.
Qed.
Lemma sq_ext x y : (x == y)%Q -> (sq x == sq y)%Q.
Proof. intros E; unfold sq; rewrite E; reflexivity. Qed.
Lemma cube_ext x y : (x == y)%Q -> (cube x == cube y)%Q.
Proof. intros E; unfold cube; rewrite E; reflexivity. Qed.

Lemma sq_le x y : (0 <= x)%Q -> (x <= y)%Q -> (sq x <= sq y)%Q.
Proof. unfold sq; intros; nra. Qed.
Lemma cube_le x y : (x <= y)%Q -> (cube x <= cube y)%Q.
Proof.
  intros H. unfold cube.
  assert ((y - x) * (x * x + x * y + y * y) >= 0)%Q.
  { assert (0 <= x * x + x * y + y * y)%Q by nra. apply Qmult_le_0_compat; lra. }
  lra.
Qed.

Lemma mom_plus_asym_eq n i : (1 <= n)%nat ->
  let t := pos n (S i) in let b := pos n i in
  (m_area (mom_plus_asym n i) == (t - b) / (2 # 1) /\
   m_first (mom_plus_asym n i) == (ssq t - ssq b) / (2 # 1) /\
   m_second (mom_plus_asym n i) == (cube t - cube b) / (2 # 1))%Q.
Proof.
  intros Hn t b. pose proof (pos_step n i Hn) as S. fold t b in S.
  unfold mom_plus_asym; fold t b. clearbody t b.
  pose proof (cube_le b t ltac:(lra)) as C.
  destruct (Qle_bool_spec 0 (t * b)) as [P|P]; cbn [m_area m_first m_second].
  - rewrite (Qabs_pos (t - b)), (Qabs_pos (cube t - cube b)) by lra.
    split; [reflexivity|]. split; [|reflexivity].
    unfold ssq. destruct (Qle_bool_spec 0 t), (Qle_bool_spec 0 b).
    + rewrite Qabs_pos; [reflexivity|]. pose proof (sq_le b t); lra.
    + (* b < 0 <= t, t b >= 0 : t = 0 *)
      assert (T : (t == 0)%Q) by nra.
      rewrite Qabs_neg; unfold sq; rewrite T; [field|]. nra.
    + lra.
    + rewrite Qabs_neg; [field|]. unfold sq; nra.
  - assert (b < 0)%Q by nra. assert (0 < t)%Q by nra.
    rewrite (Qabs_pos t), (Qabs_neg b) by lra.
    rewrite (Qabs_pos (sq t)), (Qabs_pos (sq b)) by (unfold sq; nra).
    assert (0 <= cube t)%Q by (unfold cube; apply Qmult_le_0_compat; nra).
    assert (cube b <= 0)%Q by (pose proof (cube_le b 0 ltac:(lra)); unfold cube in *; lra).
    rewrite (Qabs_pos (cube t)), (Qabs_neg (cube b)) by lra.
    split; [field|]. split; [|field].
    unfold ssq. destruct (Qle_bool_spec 0 t), (Qle_bool_spec 0 b); try lra. field.
Qed.

Lemma mom_plus_sym_eq n i : (1 <= n)%nat -> (i < n_half n)%nat ->
  (m_first (mom_plus_sym n i) == (- sq (pos_top_sym n i)) - (- sq (pos n i)))%Q.
Proof.
  intros Hn Hi. destruct (half_pos n i Hn Hi) as [A B]. cbn [mom_plus_sym m_first].
  rewrite Qabs_neg; [ring|]. unfold sq; nra.
Qed.

(* ------------------------------------------------------------------ *)
(** * Lamination parameters accumulated along the search *)
Lemma search_shift x m row M : forall levels angs nd,
  search true (x :: row) (m :: M) nd (map S levels) angs = search true row M nd levels angs.
Proof.
  induction levels as [|l levels IH]; intros [|a angs] nd; cbn [map search]; auto.

Qed.

Lemma lampam_matrix_ok : forall row rows, (countb kept row <= length rows)%nat ->
  exists M, lampam_matrix row rows = Ok M /\ length M = length row.
Proof.
  induction row as [|x row IH]; intros rows H; cbn [lampam_matrix].
  - exists []; auto.
  - rewrite countb_cons in H. destruct (kept x).
    + destruct rows as [|r rows]; [cbn in H; lia|]. cbn [length] in H.
      destruct (IH rows ltac:(lia)) as [M [E L]]. rewrite E; cbn [bind]. eexists; split; [reflexivity|cbn; lia].
    + destruct (IH rows ltac:(lia)) as [M [E L]]. rewrite E; cbn [bind]. eexists; split; [reflexivity|cbn; lia].
Qed.

Definition ply_sum (rows : list (Z -> lampam)) (h : list Z) (c : nat) : Q :=
  Qsum (length h) (fun i => nth i rows (fun _ => lampam_zero) (nth i h 0) c).

Lemma ply_sum_cons r rows a h c : (ply_sum (r :: rows) (a :: h) c == r a c + ply_sum rows h c)%Q.
Proof. unfold ply_sum. cbn [length]. rewrite Qsum_front. cbn [nth]. reflexivity. Qed.

Lemma search_sym : forall row rows M angs nd,
  lampam_matrix row rows = Ok M -> length angs = length row ->
  (forall x, In x row -> -1 <= x) ->
  let nd' := search true row M nd (seq 0 (length row)) angs in
  nd_bot nd' = nd_bot nd ++ selected angs row /\ nd_top nd' = nd_top nd /\
  forall c, (nd_lampam nd' c == nd_lampam nd c + ply_sum rows (selected angs row) c)%Q.
Proof.
  induction row as [|x row IH]; intros rows M angs nd E L B; cbn [lampam_matrix] in E.
  - destruct angs; [|discriminate L]. injection E as <-. cbn. unfold ply_sum; cbn.
    rewrite app_nil_r; repeat split. intros c; ring.
  - destruct angs as [|a angs]; [discriminate L|].
    assert (Bx : -1 <= x) by (apply B; left; reflexivity).
    cbn [length seq]. rewrite <- seq_shift.
    destruct (kept x) eqn:K.
    + destruct rows as [|r rows]; [discriminate|].
      destruct (lampam_matrix row rows) as [M'|] eqn:E'; cbn [bind] in E; [|discriminate].
      injection E as <-. cbn [search]. rewrite search_shift.
      destruct (IH rows M' angs (branch true (x :: row) (r :: M') nd 0 a) E' ltac:(cbn in L; lia)
                   ltac:(intros; apply B; right; auto)) as [P1 [P2 P3]].
      cbv zeta. rewrite P1, P2.
      assert (S : selected (a :: angs) (x :: row) = a :: selected angs row).
      { unfold selected. cbn [combine filter snd]. rewrite K. reflexivity. }
      rewrite S.
      assert (X : 0 <=? x = true) by (unfold kept in K; apply Z.leb_le; destruct (Z.eqb_spec x (-1)); cbn in K; [discriminate|lia]).
      split; [unfold branch; cbn [nth nd_bot]; rewrite X; cbn [andb orb]; rewrite <- app_assoc; reflexivity|].
      split; [unfold branch; cbn [nth nd_top]; rewrite X; reflexivity|].
      intros c. etransitivity; [apply P3|]. rewrite ply_sum_cons. unfold branch; cbn [nd_lampam nth]. unfold lampam_add. ring.
    + destruct (lampam_matrix row rows) as [M'|] eqn:E'; cbn [bind] in E; [|discriminate].
      injection E as <-. cbn [search]. rewrite search_shift.
      destruct (IH rows M' angs (branch true (x :: row) ((fun _ => lampam_zero) :: M') nd 0 a) E' ltac:(cbn in L; lia)
                   ltac:(intros; apply B; right; auto)) as [P1 [P2 P3]].
      cbv zeta. rewrite P1, P2.
      assert (S : selected (a :: angs) (x :: row) = selected angs row).
      { unfold selected. cbn [combine filter snd]. rewrite K. reflexivity. }
      rewrite S.
      assert (X : 0 <=? x = false) by (unfold kept in K; apply Z.leb_gt; destruct (Z.eqb_spec x (-1)); cbn in K; [lia|discriminate]).
      split; [unfold branch; cbn [nth nd_bot]; rewrite X; reflexivity|].
      split; [unfold branch; cbn [nth nd_top]; rewrite X; reflexivity|].
      intros c. etransitivity; [apply P3|]. unfold branch; cbn [nd_lampam nth]. unfold lampam_add, lampam_zero. ring.
Qed.

Lemma delta_lampams_rows sym cs n : delta_lampams sym cs n = map (ply_lampam sym cs) (mom_areas sym n).
Proof.
  unfold delta_lampams. destruct (sym && Nat.odd n)%bool eqn:E; cbn [andb]; [|reflexivity].
  destruct (n_half n - 1 =? middle_ply_index sym n)%nat eqn:F; [|reflexivity]. exfalso.
  apply Nat.eqb_eq in F. unfold middle_ply_index in F. rewrite E in F.
  apply andb_prop in E; destruct E as [_ O]. destruct (n_half_odd n O) as [H1 H2].
  assert ((n + 1) / 2 = n_half n)%nat; [|lia].
  rewrite H1 at 1. replace (2 * n_half n - 1 + 1)%nat with (n_half n * 2)%nat by lia. apply Nat.div_mul; lia.
Qed.

(** palindromic and anti-palindromic sums *)
Lemma Qsum_anti n F : (forall i, (i < n)%nat -> F (n - 1 - i)%nat == - F i)%Q -> (Qsum n F == 0)%Q.
Proof.
  intros H. assert (E : (Qsum n F == - Qsum n F)%Q).
  { rewrite Qsum_rev at 1. rewrite (Qsum_ext n _ (fun i => (- (1)) * F i)%Q).
    - rewrite Qsum_scale; ring.
    - intros i Hi; rewrite H by auto; ring. }
  lra.
Qed.

Lemma Qsum_pal_even m F : (forall i, (i < m)%nat -> F (2 * m - 1 - i)%nat == F i)%Q ->
  (Qsum (2 * m) F == (2 # 1) * Qsum m F)%Q.
Proof.
  intros H. replace (2 * m)%nat with (m + m)%nat by lia. rewrite Qsum_split.
  rewrite (Qsum_rev m (fun i => F (m + i)%nat)).
  rewrite (Qsum_ext m (fun i => F (m + (m - 1 - i))%nat) F); [ring|].
  intros i Hi. replace (m + (m - 1 - i))%nat with (2 * m - 1 - i)%nat by lia. apply H; auto.
Qed.

Lemma Qsum_pal_odd m F : (forall i, (i < m)%nat -> F (2 * m - i)%nat == F i)%Q ->
  (Qsum (2 * m + 1) F == (2 # 1) * Qsum m F + F m)%Q.
Proof.
  intros H. replace (2 * m + 1)%nat with (m + S m)%nat by lia. rewrite Qsum_split, Qsum_front.
  rewrite (Qsum_rev m (fun i => F (m + S i)%nat)).
  rewrite (Qsum_ext m (fun i => F (m + S (m - 1 - i))%nat) F).
  - rewrite Nat.add_0_r; ring.
  - intros i Hi. replace (m + S (m - 1 - i))%nat with (2 * m - i)%nat by lia. apply H; auto.
Qed.

(** coefficient of ply i in a complete laminate *)
Definition coef (g : Q -> Q) (n i : nat) : Q := (g (pos n (S i)) - g (pos n i))%Q.

Lemma coef_mirror (g : Q -> Q) n i : (forall x y, x == y -> g x == g y)%Q -> (1 <= n)%nat -> (i < n)%nat ->
  (coef g n (n - 1 - i) == g (- pos n i) - g (- pos n (S i)))%Q.
Proof.
  intros Hg Hn Hi. unfold coef. replace (S (n - 1 - i)) with (n - i)%nat by lia.
  replace (n - 1 - i)%nat with (n - S i)%nat by lia.
  rewrite (Hg _ _ (pos_mirror n i Hn ltac:(lia))), (Hg _ _ (pos_mirror n (S i) Hn ltac:(lia))). reflexivity.
Qed.

(** an odd g: the complete symmetric laminate is twice the lower half *)
Lemma half_full_odd (g : Q -> Q) n (f : nat -> Q) :
  (forall x y, x == y -> g x == g y)%Q -> (forall x, g (- x) == - g x)%Q -> (1 <= n)%nat ->
  (forall i, (i < n)%nat -> f (n - 1 - i)%nat == f i)%Q ->
  (Qsum n (fun i => coef g n i * f i) ==
   (2 # 1) * Qsum (n_half n) (fun i => (g (pos_top_sym n i) - g (pos n i)) * f i))%Q.
Proof.
  intros Hg Ho Hn Hf.
  assert (G0 : (g 0 == 0)%Q).
  { pose proof (Ho 0%Q) as A. rewrite (Hg (- 0) 0)%Q in A by reflexivity. lra. }
  assert (P : forall i, (i < n)%nat -> (coef g n (n - 1 - i) * f (n - 1 - i)%nat == coef g n i * f i)%Q).
  { intros i Hi. rewrite coef_mirror, Hf, !Ho by auto. unfold coef; ring. }
  destruct (Nat.odd n) eqn:O.
  - destruct (n_half_odd n O) as [En Hm]. destruct (n_half n) as [|m] eqn:Em; [lia|].
    assert (E2 : n = (2 * m + 1)%nat) by lia.
    rewrite E2 at 1. rewrite Qsum_pal_odd.
    + cbn [Qsum]. rewrite (Qsum_ext m (fun i => (g (pos_top_sym n i) - g (pos n i)) * f i)%Q (fun i => coef g n i * f i)%Q).
      * unfold pos_top_sym at 1. rewrite O, Em, Nat.eqb_refl; cbn [andb]. rewrite G0.
        unfold coef at 2.
        assert (M : (pos n (S m) == - pos n m)%Q).
        { rewrite <- pos_mirror by lia. replace (n - m)%nat with (S m) by lia. reflexivity. }
        rewrite (Hg _ _ M), Ho. ring.
      * intros i Hi. unfold pos_top_sym. rewrite O, Em.
        destruct (S i =? S m)%nat eqn:E; [apply Nat.eqb_eq in E; lia|]. reflexivity.
    + intros i Hi. specialize (P i ltac:(lia)). replace (n - 1 - i)%nat with (2 * m - i)%nat in P by lia. exact P.
  - pose proof (n_half_even n O) as En.
    rewrite En at 1. rewrite Qsum_pal_even.
    + rewrite (Qsum_ext _ (fun i => (g (pos_top_sym n i) - g (pos n i)) * f i)%Q (fun i => coef g n i * f i)%Q); [reflexivity|].
      intros i Hi. unfold pos_top_sym. rewrite O. reflexivity.
    + intros i Hi. specialize (P i ltac:(lia)). replace (2 * n_half n - 1 - i)%nat with (n - 1 - i)%nat by lia. exact P.
Qed.

(** an even g: the contributions cancel *)
Lemma half_full_even (g : Q -> Q) n (f : nat -> Q) :
  (forall x y, x == y -> g x == g y)%Q -> (forall x, g (- x) == g x)%Q -> (1 <= n)%nat ->
  (forall i, (i < n)%nat -> f (n - 1 - i)%nat == f i)%Q ->
  (Qsum n (fun i => coef g n i * f i) == 0)%Q.
Proof.
  intros Hg He Hn Hf. apply Qsum_anti. intros i Hi. rewrite coef_mirror, Hf, !He by auto. unfold coef; ring.
Qed.

(** the complete stack of a symmetric panel *)
Lemma sym_stack n (h : list Z) : (1 <= n)%nat -> length h = n_half n ->
  let s := let s := h ++ rev h in if Nat.odd n then del (middle_ply_index true n) s else s in
  length s = n /\ s = rev s /\ firstn (n_half n) s = h.
Proof.
  intros Hn L. cbv zeta. destruct (Nat.odd n) eqn:O.
  - destruct (n_half_odd n O) as [En Hm].
    assert (M : middle_ply_index true n = n_half n).
    { unfold middle_ply_index. rewrite O; cbn [andb]. rewrite En at 1.
      replace (2 * n_half n - 1 + 1)%nat with (n_half n * 2)%nat by lia. apply Nat.div_mul; lia. }
    rewrite M, del_spec, <- L.
    rewrite firstn_app, Nat.sub_diag, firstn_O, app_nil_r, firstn_all.
    replace (S (length h)) with (length h + 1)%nat by lia.
    rewrite skipn_app, skipn_all2 by lia. replace (length h + 1 - length h)%nat with 1%nat by lia. cbn [app].
    destruct (exists_last (l := h) ltac:(intros E0; rewrite E0 in L; rewrite <- L in Hm; cbn in Hm; lia)) as [h' [a ->]].
    rewrite rev_app_distr. cbn [rev app skipn].
    split; [rewrite app_length in L; cbn [length] in L; rewrite !app_length, rev_length; cbn [length]; lia|].
    split.
    + rewrite !rev_app_distr, rev_involutive. cbn [rev app]. rewrite <- ?app_assoc. reflexivity.
    + rewrite firstn_app, Nat.sub_diag, firstn_O, app_nil_r, firstn_all. reflexivity.
  - pose proof (n_half_even n O) as En. split; [rewrite app_length, rev_length; lia|].
    split; [rewrite rev_app_distr, rev_involutive; reflexivity|].
    rewrite <- L, firstn_app, Nat.sub_diag, firstn_O, app_nil_r, firstn_all. reflexivity.
Qed.

(** powers of the distance to the mid-plane used by the three kinds of parameters *)
Definition pw (c : nat) (x : Q) : Q := if (c <? 4)%nat then x else if (c <? 8)%nat then sq x else cube x.

Lemma pw_ext c x y : (x == y)%Q -> (pw c x == pw c y)%Q.
Proof.
  intros E; unfold pw. destruct (c <? 4)%nat; [exact E|]. destruct (c <? 8)%nat; [apply sq_ext | apply cube_ext]; exact E.
Qed.

Lemma nth_firstn_lt {A} (d : A) k l i : (i < k)%nat -> nth i (firstn k l) d = nth i l d.
Proof.
  revert k i; induction l as [|x l IH]; intros [|k] [|i] H; cbn; auto; try lia. apply IH; lia.
Qed.

Lemma ply_sum_sym cs n h c : (1 <= n)%nat -> length h = n_half n ->
  (ply_sum (map (ply_lampam true cs) (mom_areas true n)) h c ==
   Qsum (n_half n) (fun i => (if ((4 <=? c) && (c <? 8))%nat then 0 else pw c (pos_top_sym n i) - pw c (pos n i)) * cs (nth i h 0%Z) (c mod 4)%nat))%Q.
Proof.
  intros Hn L. unfold ply_sum. rewrite L. apply Qsum_ext. intros i Hi.
  rewrite (nth_indep _ _ (ply_lampam true cs {| m_area := 0; m_first := 0; m_second := 0 |}))
    by (unfold mom_areas; rewrite !map_length, seq_length; auto).
  rewrite map_nth. unfold mom_areas.
  rewrite (nth_indep _ _ (mom_sym n 0)) by (rewrite map_length, seq_length; auto).
  rewrite map_nth, seq_nth by auto. cbn [plus].
  unfold ply_lampam, mom_sym, pw; cbn [m_area m_first m_second].
  destruct (c <? 4)%nat eqn:C4.
  - apply Nat.ltb_lt in C4. destruct (4 <=? c)%nat eqn:X; [apply Nat.leb_le in X; lia|]. cbn [andb]. reflexivity.
  - apply Nat.ltb_ge in C4. destruct (4 <=? c)%nat eqn:X; [|apply Nat.leb_gt in X; lia]. cbn [andb].
    destruct (c <? 8)%nat; [ring|reflexivity].
Qed.

Lemma sym_lampam cs n h s c : (1 <= n)%nat -> length h = n_half n -> length s = n -> s = rev s -> firstn (n_half n) s = h ->
  (ply_sum (map (ply_lampam true cs) (mom_areas true n)) h c ==
   (1 # 2) * Qsum n (fun i => coef (pw c) n i * cs (nth i s 0%Z) (c mod 4)%nat))%Q.
Proof.
  intros Hn L Ls Hs Hf. rewrite ply_sum_sym by auto.
  assert (Pal : forall i, (i < n)%nat -> (cs (nth (n - 1 - i) s 0%Z) (c mod 4)%nat == cs (nth i s 0%Z) (c mod 4)%nat)%Q).
  { intros i Hi. rewrite Hs at 1. rewrite rev_nth by lia. replace (length s - S (n - 1 - i))%nat with i by lia. reflexivity. }
  destruct (((4 <=? c) && (c <? 8))%nat)%bool eqn:K.
  - apply andb_prop in K; destruct K as [K1 K2]. apply Nat.leb_le in K1; apply Nat.ltb_lt in K2.
    rewrite (half_full_even (pw c) n (fun i => cs (nth i s 0%Z) (c mod 4)%nat)); auto.
    + rewrite (Qsum_ext _ _ (fun i => 0 * 0)%Q) by (intros; ring). rewrite Qsum_scale. ring.
    + intros; apply pw_ext; auto.
    + intros x. unfold pw. destruct (c <? 4)%nat eqn:X; [apply Nat.ltb_lt in X; lia|].
      destruct (c <? 8)%nat eqn:Y; [|apply Nat.ltb_ge in Y; lia]. unfold sq; ring.
  - rewrite (half_full_odd (pw c) n (fun i => cs (nth i s 0%Z) (c mod 4)%nat)); auto.
    + rewrite Qmult_assoc. setoid_replace ((1 # 2) * (2 # 1))%Q with 1%Q by reflexivity. rewrite Qmult_1_l.
      apply Qsum_ext. intros i Hi. rewrite <- Hf, nth_firstn_lt by auto. reflexivity.
    + intros; apply pw_ext; auto.
    + intros x. unfold pw. destruct (c <? 4)%nat eqn:X; [reflexivity|]. apply Nat.ltb_ge in X.
      destruct (4 <=? c)%nat eqn:Z; [|apply Nat.leb_gt in Z; lia]. cbn [andb] in K. rewrite K. unfold cube; ring.
Qed.

(* ------------------------------------------------------------------ *)
(** * Cumulated moments *)
Lemma cumul_spec : forall row ws acc, length acc = length row -> (countb kept row <= length ws)%nat ->
  exists r, cumul row ws acc = Ok r /\ length r = length row /\
    forall j, (j < length row)%nat ->
      (nth j r 0 == nth j acc 0 + sumQ (firstn (countb kept (firstn (S j) row)) ws))%Q.
Proof.
  induction row as [|x row IH]; intros ws acc L C.
  - exists []. destruct acc; [|discriminate L]. cbn. repeat split; intros; lia.
  - destruct acc as [|a acc]; [discriminate L|]. cbn [cumul]. rewrite countb_cons in C.
    destruct (kept x) eqn:K.
    + destruct ws as [|w ws]; [cbn in C; lia|]. cbn [add_from map].
      destruct (IH ws (map (fun y => y + w)%Q acc)) as [r [E [Lr H]]].
      { rewrite map_length; cbn in L; lia. }
      { cbn [length] in C; lia. }
      rewrite E; cbn [bind]. eexists; split; [reflexivity|]. split; [cbn; lia|].
      intros j Hj. cbn [firstn]. rewrite countb_cons, K. cbn [Nat.add plus].
      change (1 + countb kept (firstn j row))%nat with (S (countb kept (firstn j row))). cbn [firstn].
      change (sumQ (w :: firstn (countb kept (firstn j row)) ws)) with (w + sumQ (firstn (countb kept (firstn j row)) ws))%Q.
      destruct j as [|j].
      * cbn [nth firstn]. rewrite (eq_refl : countb kept [] = 0%nat). cbn [firstn]. change (sumQ []) with 0%Q. ring.
      * cbn [nth]. cbn [length] in Hj. rewrite H by lia.
        rewrite (nth_indep _ 0%Q (0 + w)%Q) by (rewrite map_length; cbn in L; lia).
        rewrite (map_nth (fun y => (y + w)%Q)). ring.
    + destruct (IH ws acc) as [r [E [Lr H]]]; [cbn in L; lia | lia |].
      rewrite E; cbn [bind]. eexists; split; [reflexivity|]. split; [cbn; lia|].
      intros j Hj. cbn [firstn]. rewrite countb_cons, K. cbn [Nat.add plus].
      destruct j as [|j].
      * cbn [nth firstn]. rewrite (eq_refl : countb kept [] = 0%nat). cbn [firstn]. change (sumQ []) with 0%Q. ring.
      * cbn [nth]. cbn [length] in Hj. rewrite H by lia. reflexivity.
Qed.

Lemma sumQ_firstn_mono l : (forall x, In x l -> 0 <= x)%Q -> forall i j, (i <= j)%nat ->
  (sumQ (firstn i l) <= sumQ (firstn j l))%Q.
Proof.
  induction l as [|a l IH]; intros P i j H.
  - rewrite !firstn_nil. lra.
  - destruct i as [|i].
    + change (firstn 0 (a :: l)) with (@nil Q).
      assert (G : forall l', (forall x, In x l' -> 0 <= x)%Q -> (0 <= sumQ l')%Q).
      { clear. induction l' as [|b l' IH]; intros P; [apply Qle_refl|].
        change (0 <= b + sumQ l')%Q. pose proof (P b ltac:(left; auto)). pose proof (IH ltac:(intros; apply P; right; auto)). lra. }
      apply G. intros x Hx. apply P. rewrite <- (firstn_skipn j (a :: l)). apply in_or_app; left; exact Hx.
    + destruct j as [|j]; [lia|]. cbn [firstn].
      change (a + sumQ (firstn i l) <= a + sumQ (firstn j l))%Q.
      pose proof (IH ltac:(intros; apply P; right; auto) i j ltac:(lia)). lra.
Qed.
