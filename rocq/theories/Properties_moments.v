(* Properties_moments.v - property theorems C20, C21, C22, C50 (ply order, moments of
   area, lamination parameters). *)
From Coq Require Import Lqa.
From Verif Require Import Base Uniq Divers DiversProofs Spacing SpacingProofs Strip Format FormatProofs Divide DivideProofs Moments MomentsProofs.
Local Open Scope Z_scope.

(* ------------------------------------------------------------------ *)
(** ** C20 *)

(** symmetric: the lower half, from the outside inwards, middle ply included *)
Theorem C20_sym_order : forall n,
  ply_order true n = seq 0 (length (ply_order true n)) /\
  (n <= 2 * length (ply_order true n) <= n + 1)%nat.
Proof.
  intros n. unfold ply_order. rewrite seq_length. split; [reflexivity|].
  pose proof (n_half_spec n). unfold n_half in *.
  pose proof (Nat.div_mod n 2 ltac:(lia)); pose proof (Nat.mod_upper_bound n 2 ltac:(lia)); lia.
Qed.
Print Assumptions C20_sym_order.

(** otherwise every ply exactly once *)
Theorem C20_asym_every_ply_once : forall n, Permutation (ply_order false n) (seq 0 n).
Proof. exact ply_order_perm. Qed.
Print Assumptions C20_asym_every_ply_once.

(** ... alternating the plies from both ends: the plies still to be optimised after k steps
    are always a block of consecutive plies in the middle of the laminate, centred up to
    one ply *)
Theorem C20_asym_alternating : forall n k j, (k < n)%nat -> (j < n)%nat ->
  (In j (firstn k (ply_order false n)) <-> (j < (k + 1) / 2 \/ n - k / 2 <= j)%nat).
Proof.
  intros n k j Hk Hj. pose proof (ply_order_perm n) as P.
  assert (Len : length (ply_order false n) = n) by (rewrite (Permutation_length P), seq_length; reflexivity).
  pose proof (Nat.div_mod k 2 ltac:(lia)); pose proof (Nat.mod_upper_bound k 2 ltac:(lia)).
  pose proof (Nat.div_mod (k + 1) 2 ltac:(lia)); pose proof (Nat.mod_upper_bound (k + 1) 2 ltac:(lia)).
  split.
  - intros H3. apply (In_nth _ _ 0%nat) in H3. destruct H3 as [i [Hi E]].
    rewrite firstn_length, Len in Hi. rewrite nth_firstn_lt in E by lia.
    rewrite ply_order_nth in E by lia.
    pose proof (Nat.div_mod i 2 ltac:(lia)); pose proof (Nat.mod_upper_bound i 2 ltac:(lia)).
    destruct (Nat.even i) eqn:Ev.
    + left. apply Nat.even_spec in Ev; destruct Ev as [u ->]. lia.
    + right. assert (O : Nat.odd i = true) by (rewrite <- Nat.negb_even, Ev; reflexivity).
      apply Nat.odd_spec in O; destruct O as [u ->]. lia.
  - intros H3. assert (Ex : exists i, (i < k)%nat /\ nth i (ply_order false n) 0%nat = j).
    { destruct H3 as [H3|H3].
      - exists (2 * j)%nat. split; [lia|]. rewrite ply_order_nth by lia.
        replace (Nat.even (2 * j)) with true by (symmetry; apply Nat.even_spec; exists j; lia).
        rewrite Nat.mul_comm, Nat.div_mul; lia.
      - exists (2 * (n - 1 - j) + 1)%nat. split; [lia|]. rewrite ply_order_nth by lia.
        replace (Nat.even (2 * (n - 1 - j) + 1)) with false
          by (symmetry; rewrite <- Nat.negb_odd; replace (Nat.odd _) with true; [reflexivity|symmetry; apply Nat.odd_spec; eexists; reflexivity]).
        replace ((2 * (n - 1 - j) + 1) / 2)%nat with (n - 1 - j)%nat by (rewrite Nat.add_comm, Nat.mul_comm, Nat.div_add by lia; reflexivity). lia. }
    destruct Ex as [i [Hi E]]. rewrite <- E. rewrite <- (nth_firstn_lt 0%nat k) by auto.
    apply nth_In. rewrite firstn_length, Len. lia.
Qed.
Print Assumptions C20_asym_alternating.

Example C20_example : ply_order false 7 = [0; 6; 1; 5; 2; 4; 3]%nat /\ ply_order true 7 = [0; 1; 2; 3]%nat.
Proof. split; reflexivity. Qed.

(* ------------------------------------------------------------------ *)
(** ** C21 *)

(** areas and second moments add up to one and the first moments cancel *)
Theorem C21_moments_normalised : forall (sym : bool) n, (1 <= n)%nat ->
  (sumQ (map m_area (mom_areas sym n)) == 1 /\
   sumQ (map m_first (mom_areas sym n)) == 0 /\
   sumQ (map m_second (mom_areas sym n)) == 1)%Q.
Proof.
  intros sym n Hn. destruct sym; unfold mom_areas.
  - rewrite !sum_sym_rows. cbn [mom_sym m_area m_first m_second].
    split; [|split].
    + rewrite (sym_tele (fun x => x)); auto; reflexivity.
    + rewrite (Qsum_ext _ _ (fun _ => 0 * 0)%Q) by (intros; ring). rewrite Qsum_scale; ring.
    + rewrite (sym_tele cube); auto using cube_ext; reflexivity.
  - rewrite !sum_asym_rows. cbn [mom_asym m_area m_first m_second].
    assert (T : forall g : Q -> Q, (forall x y, x == y -> g x == g y)%Q ->
      (Qsum n (fun i => (g (pos n (S i)) - g (pos n i)) / (2 # 1)) == (1 # 2) * (g 1 - g (-1)))%Q).
    { intros g Hg. rewrite <- (full_tele g n Hg Hn), <- Qsum_scale. apply Qsum_ext; intros; field. }
    split; [|split].
    + rewrite (T (fun x => x)) by auto. reflexivity.
    + rewrite (T sq) by apply sq_ext. reflexivity.
    + rewrite (T cube) by apply cube_ext. reflexivity.
Qed.
Print Assumptions C21_moments_normalised.

(** every ply has a positive area and second moment *)
Theorem C21_moments_signs : forall (sym : bool) n m, (1 <= n)%nat -> In m (mom_areas sym n) ->
  (0 <= m_area m /\ 0 <= m_second m)%Q.
Proof.
  intros sym n m Hn H. destruct sym; unfold mom_areas in H; apply in_map_iff in H; destruct H as [i [<- Hi]].
  - apply in_seq in Hi. destruct (half_pos n i Hn ltac:(lia)) as [A B]. cbn [mom_sym m_area m_second].
    pose proof (cube_le _ _ A). split; lra.
  - cbn [mom_asym m_area m_second]. pose proof (pos_step n i Hn) as A. pose proof (cube_le (pos n i) (pos n (S i)) ltac:(lra)).
    split; apply Qle_shift_div_l; lra.
Qed.
Print Assumptions C21_moments_signs.

(** the positive moments are non-negative, add up to one, and there is one row per ply to
    be optimised *)
Theorem C21_positive_moments : forall (sym : bool) n, (1 <= n)%nat ->
  length (mom_areas_plus sym n) = length (ply_order sym n) /\
  (forall m, In m (mom_areas_plus sym n) -> 0 <= m_area m /\ 0 <= m_first m /\ 0 <= m_second m)%Q /\
  (sumQ (map m_area (mom_areas_plus sym n)) == 1 /\
   sumQ (map m_first (mom_areas_plus sym n)) == 1 /\
   sumQ (map m_second (mom_areas_plus sym n)) == 1)%Q.
Proof.
  intros sym n Hn. destruct sym; unfold mom_areas_plus.
  - split; [rewrite map_length; reflexivity|]. split.
    + intros m H. apply in_map_iff in H; destruct H as [i [<- Hi]]. apply in_seq in Hi.
      destruct (half_pos n i Hn ltac:(lia)) as [A B]. cbn [mom_plus_sym m_area m_first m_second].
      pose proof (cube_le _ _ A). split; [lra|]. split; [apply Qabs_nonneg|lra].
    + rewrite !sum_sym_rows. split; [|split].
      * cbn [mom_plus_sym m_area]. rewrite (sym_tele (fun x => x)); auto; reflexivity.
      * rewrite (Qsum_ext _ _ (fun i => (fun x => - sq x) (pos_top_sym n i) - (fun x => - sq x) (pos n i))%Q).
        -- rewrite (sym_tele (fun x => - sq x)%Q); auto; try reflexivity. intros x y E; rewrite (sq_ext _ _ E); reflexivity.
        -- intros i Hi. apply mom_plus_sym_eq; auto.
      * cbn [mom_plus_sym m_second]. rewrite (sym_tele cube); auto using cube_ext; reflexivity.
  - split; [rewrite map_length; reflexivity|].
    assert (T : forall g : Q -> Q, (forall x y, x == y -> g x == g y)%Q ->
      (Qsum n (fun i => (g (pos n (S i)) - g (pos n i)) / (2 # 1)) == (1 # 2) * (g 1 - g (-1)))%Q).
    { intros g Hg. rewrite <- (full_tele g n Hg Hn), <- Qsum_scale. apply Qsum_ext; intros; field. }
    split.
    + intros m H. apply in_map_iff in H; destruct H as [i [<- Hi]].
      unfold mom_plus_asym. destruct (Qle_bool 0 _); cbn [m_area m_first m_second];
        (split; [|split]); apply Qle_shift_div_l; try lra; rewrite Qmult_0_l; try apply Qabs_nonneg;
        match goal with |- (0 <= Qabs ?a + Qabs ?b)%Q => pose proof (Qabs_nonneg a); pose proof (Qabs_nonneg b); lra end.
    + rewrite !sum_asym_rows. split; [|split].
      * rewrite (Qsum_ext _ _ (fun i => (pos n (S i) - pos n i) / (2 # 1))%Q) by (intros; apply mom_plus_asym_eq; auto).
        rewrite (T (fun x => x)) by auto. reflexivity.
      * rewrite (Qsum_ext _ _ (fun i => (ssq (pos n (S i)) - ssq (pos n i)) / (2 # 1))%Q) by (intros; apply mom_plus_asym_eq; auto).
        rewrite (T ssq) by apply ssq_ext. reflexivity.
      * rewrite (Qsum_ext _ _ (fun i => (cube (pos n (S i)) - cube (pos n i)) / (2 # 1))%Q) by (intros; apply mom_plus_asym_eq; auto).
        rewrite (T cube) by apply cube_ext. reflexivity.
Qed.
Print Assumptions C21_positive_moments.

(* ------------------------------------------------------------------ *)
(** ** C22 *)

(** distance of the interface below ply i from the mid-plane of a laminate of n plies of
    unit half thickness *)
Definition interface (n i : nat) : Q := (inject_Z (2 * Z.of_nat i) / inject_Z (Z.of_nat n) - 1)%Q.

(** classical lamination parameters of a laminate: c = 0..3 in-plane, 4..7 coupling,
    8..11 out-of-plane; [cos_sin a k] are the trigonometric functions of the angle a *)
Definition lamination_parameter (cos_sin : Z -> nat -> Q) (s : list Z) (c : nat) : Q :=
  let n := length s in
  let power (x : Q) := if (c <? 4)%nat then x else if (c <? 8)%nat then (x * x)%Q else (x * x * x)%Q in
  ((1 # 2) * sumQ (map (fun i => (power (interface n (S i)) - power (interface n i)) * cos_sin (nth i s 0%Z) (c mod 4)%nat)
                       (seq 0 n)))%Q.

Lemma interface_pos n i : (1 <= n)%nat -> (interface n i == pos n i)%Q.
Proof.
  intros H. unfold interface, pos. rewrite inject_Z_mult. pose proof (nz n H).
  change (inject_Z 2) with (2 # 1)%Q. field. auto.
Qed.

Lemma lampam_coef cs s c : (1 <= length s)%nat ->
  (lamination_parameter cs s c == (1 # 2) * Qsum (length s) (fun i => coef (pw c) (length s) i * cs (nth i s 0%Z) (c mod 4)%nat))%Q.
Proof.
  intros H. unfold lamination_parameter. rewrite sumQ_map_seq.
  rewrite (Qsum_ext _ _ (fun i => coef (pw c) (length s) i * cs (nth i s 0%Z) (c mod 4)%nat)%Q); [reflexivity|].
  intros i Hi. cbn [plus]. unfold coef.
  rewrite <- (pw_ext c _ _ (interface_pos (length s) (S i) H)), <- (pw_ext c _ _ (interface_pos (length s) i H)).
  unfold pw, sq, cube. reflexivity.
Qed.

(** Symmetric laminates. [row] is the line of a panel of n plies in the layout of the
    lower half of a structure whose thickest panel has n_max plies (middle column
    included); the search chooses the angles [angs] at the levels ply_order. Then the
    search does not fail, the complete stack of the panel has n plies, is symmetric with
    the kept plies as lower half, and the accumulated lamination parameters are those of
    this stack. *)
Theorem C22_sym_accumulated_lampam_partial : forall cos_sin n_max n row angs,
  (1 <= n)%nat -> length row = length (ply_order true n_max) -> length angs = length row ->
  (forall x, In x row -> -1 <= x) -> countb kept row = length (ply_order true n) ->
  exists M s, lampam_matrix row (delta_lampams true cos_sin n) = Ok M /\
    let nd := search true row M node0 (ply_order true n_max) angs in
    full_stack true n nd = Ok s /\
    length s = n /\ s = rev s /\ firstn (length (ply_order true n)) s = selected angs row /\
    forall c, (nd_lampam nd c == lamination_parameter cos_sin s c)%Q.
Proof.
  intros cs n_max n row angs Hn Lr La B C.
  unfold ply_order in Lr, C. rewrite seq_length in Lr, C.
  destruct (lampam_matrix_ok row (delta_lampams true cs n)) as [M [E _]].
  { rewrite delta_lampams_rows. unfold mom_areas. rewrite !map_length, seq_length. lia. }
  destruct (search_sym row _ M angs node0 E La B) as [P1 [_ P3]].
  set (h := selected angs row) in *.
  assert (Lh : length h = n_half n) by (unfold h; rewrite selected_length; auto).
  destruct (sym_stack n h Hn Lh) as [S1 [S2 S3]]. cbv zeta in S1, S2, S3.
  set (s := if Nat.odd n then del (middle_ply_index true n) (h ++ rev h) else h ++ rev h) in *.
  exists M, s. split; [exact E|]. cbv zeta.
  assert (Po : ply_order true n_max = seq 0 (length row)) by (unfold ply_order; rewrite Lr; reflexivity).
  rewrite !Po.
  split; [|split; [|split; [|split]]]; auto.
  - unfold full_stack. rewrite P1. cbn [node0 nd_bot app]. fold s. rewrite S1, Nat.eqb_refl. reflexivity.
  - unfold ply_order. rewrite seq_length. exact S3.
  - intros c. etransitivity; [apply P3|]. cbn [node0 nd_lampam]. unfold lampam_zero. rewrite Qplus_0_l.
    rewrite delta_lampams_rows. rewrite lampam_coef by lia. rewrite S1.
    apply sym_lampam; auto.
Qed.
Print Assumptions C22_sym_accumulated_lampam_partial.

(** not empty: a panel of 5 plies in a structure with 9 plies *)
Example C22_example :
  let row := [0; -1; 0; -1; 0] in let angs := [45; 0; -45; 90; 0] in
  length row = length (ply_order true 9) /\ countb kept row = length (ply_order true 5) /\
  selected angs row = [45; -45; 0].
Proof. repeat split. Qed.

(** a laminate with one angle only has the lamination parameters of this angle *)
Theorem C21_one_angle : forall cos_sin a n, (1 <= n)%nat ->
  forall c, (c < 12)%nat ->
  (lamination_parameter cos_sin (repeat a n) c == if ((4 <=? c) && (c <? 8))%nat then 0 else cos_sin a (c mod 4)%nat)%Q.
Proof.
  intros cs a n Hn c Hc. rewrite lampam_coef; rewrite repeat_length; auto.
  rewrite (Qsum_ext n _ (fun i => cs a (c mod 4)%nat * (pw c (pos n (S i)) - pw c (pos n i)))%Q).
  - rewrite Qsum_scale, (full_tele (pw c) n) by (auto; apply pw_ext). unfold pw.
    destruct (c <? 4)%nat eqn:C4.
    + apply Nat.ltb_lt in C4. destruct (4 <=? c)%nat eqn:X; [apply Nat.leb_le in X; lia|]. cbn [andb]. ring.
    + apply Nat.ltb_ge in C4. destruct (4 <=? c)%nat eqn:X; [|apply Nat.leb_gt in X; lia]. cbn [andb].
      destruct (c <? 8)%nat; unfold sq, cube; ring.
  - intros i Hi. unfold coef. rewrite (nth_indep _ 0 a) by (rewrite repeat_length; auto). rewrite nth_repeat. ring.
Qed.
Print Assumptions C21_one_angle.

(** Asymmetric laminates: the accumulated lamination parameters are in general not those
    of the stack (the columns of the layout, the levels of the search and the moments are
    numbered in different orders). *)
Theorem C22_asym_accumulated_lampam_refuted :
  ~ (forall cos_sin n row angs M s,
      (1 <= n)%nat -> length row = n -> length angs = n -> countb kept row = n ->
      lampam_matrix row (delta_lampams false cos_sin n) = Ok M ->
      full_stack false n (search false row M node0 (ply_order false n) angs) = Ok s ->
      forall c, (nd_lampam (search false row M node0 (ply_order false n) angs) c == lamination_parameter cos_sin s c)%Q).
Proof.
  intros H.
  pose (cs := fun (a : Z) (k : nat) => if a =? 90 then (-1)%Q else 1%Q).
  specialize (H cs 6%nat [0; 0; 0; 0; 0; 0] [0; 0; 0; 0; 0; 90]).
  eassert (E : lampam_matrix [0; 0; 0; 0; 0; 0] (delta_lampams false cs 6) = Ok _) by reflexivity.
  specialize (H _ [0; 0; 0; 90; 0; 0] ltac:(lia) eq_refl eq_refl eq_refl E eq_refl 8%nat).
  vm_compute in H. discriminate H.
Qed.
Print Assumptions C22_asym_accumulated_lampam_refuted.

(* ------------------------------------------------------------------ *)
(** ** C50 *)

(** one of the three columns of the table of the positive moments *)
Definition column (k : nat) (m : mom) : Q := match k with O => m_area m | 1%nat => m_first m | _ => m_second m end.

(** the cumulated moments never decrease along the columns, lie between 0 and 1, do not
    change at a dropped ply, and reach one at the last column *)
Theorem C50_cumulated_moments : forall (sym : bool) n row k,
  (1 <= n)%nat -> countb kept row = length (ply_order sym n) ->
  exists r, calc_mom_of_areas2 row (map (column k) (mom_areas_plus sym n)) = Ok r /\
    length r = length row /\
    (forall j, (j < length row)%nat -> 0 <= nth j r 0 <= 1)%Q /\
    (forall i j, (i <= j < length row)%nat -> nth i r 0 <= nth j r 0)%Q /\
    (forall j, (S j < length row)%nat -> nth (S j) row 0%Z = (-1)%Z -> nth (S j) r 0 == nth j r 0)%Q /\
    (last r 0 == 1)%Q.
Proof.
  intros sym n row k Hn C.
  destruct (C21_positive_moments sym n Hn) as [L [P [S1 [S2 S3]]]].
  set (ws := map (column k) (mom_areas_plus sym n)).
  assert (Lw : length ws = countb kept row) by (unfold ws; rewrite map_length, L; auto).
  assert (Pw : forall x, In x ws -> (0 <= x)%Q).
  { intros x H. unfold ws in H. apply in_map_iff in H. destruct H as [m [<- Hm]]. destruct (P m Hm) as [A [B D]].
    unfold column. destruct k as [|[|k]]; auto. }
  assert (Sw : (sumQ ws == 1)%Q) by (unfold ws, column; destruct k as [|[|k]]; auto).
  destruct (cumul_spec row ws (repeat 0%Q (length row))) as [r [E [Lr H]]]; [apply repeat_length | lia |].
  assert (H' : forall j, (j < length row)%nat -> (nth j r 0 == sumQ (firstn (countb kept (firstn (S j) row)) ws))%Q).
  { intros j Hj. rewrite H by auto. rewrite nth_repeat. ring. }
  assert (Mono : forall i j, (i <= j < length row)%nat -> (nth i r 0 <= nth j r 0)%Q).
  { intros i j Hij. rewrite !H' by lia. apply sumQ_firstn_mono; auto.
    replace (firstn (S i) row) with (firstn (S i) (firstn (S j) row)) by (rewrite firstn_firstn; f_equal; lia).
    rewrite <- (firstn_skipn (S i) (firstn (S j) row)) at 2. rewrite countb_app. lia. }
  exists r. split; [exact E|]. split; [exact Lr|].
  split; [|split; [|split]]; auto.
  - intros j Hj. rewrite H' by auto. split.
    + pose proof (sumQ_firstn_mono ws Pw 0 (countb kept (firstn (S j) row)) ltac:(lia)) as A. exact A.
    + rewrite <- Sw. rewrite <- (firstn_all ws) at 2. apply sumQ_firstn_mono; auto.
      rewrite Lw. rewrite <- (firstn_skipn (S j) row) at 2. rewrite countb_app. lia.
  - intros j Hj Hd. rewrite !H' by lia.
    assert (X : countb kept (firstn (S (S j)) row) = countb kept (firstn (S j) row)); [|rewrite X; reflexivity].
    clear - Hd Hj. revert j Hj Hd. induction row as [|x row IH]; intros j Hj Hd; [cbn in Hj; lia|].
    cbn [length] in Hj. destruct j as [|j].
    + destruct row as [|y row]; [cbn in Hj; lia|]. cbn in Hd. subst y. cbn [firstn]. rewrite !countb_cons.
      cbn [kept Z.eqb negb]. destruct (kept x); reflexivity.
    + cbn [nth] in Hd. replace (firstn (S (S (S j))) (x :: row)) with (x :: firstn (S (S j)) row) by reflexivity.
      replace (firstn (S (S j)) (x :: row)) with (x :: firstn (S j) row) by reflexivity.
      rewrite !countb_cons, (IH j) by (auto; lia). reflexivity.
  - assert (Hz : (1 <= length (ply_order sym n))%nat).
    { destruct sym; unfold ply_order.
      - rewrite seq_length. pose proof (n_half_spec n); lia.
      - pose proof (Permutation_length (ply_order_perm n)) as A. unfold ply_order in A. rewrite A, seq_length. lia. }
    assert (Lpos : (1 <= length row)%nat) by (destruct row; [cbn in C; lia | cbn; lia]).
    assert (Nl : last r 0%Q = nth (length row - 1) r 0%Q).
    { destruct (exists_last (l := r) ltac:(intros ->; cbn in Lr; lia)) as [r' [z ->]].
      rewrite last_last. rewrite app_length in Lr; cbn in Lr. rewrite app_nth2 by lia.
      replace (length row - 1 - length r')%nat with 0%nat by lia. reflexivity. }
    rewrite Nl, H' by lia. replace (S (length row - 1)) with (length row) by lia.
    rewrite firstn_all, <- Lw, firstn_all. exact Sw.
Qed.
Print Assumptions C50_cumulated_moments.

Example C50_example : countb kept [0; -1; 0; -1; 0] = length (ply_order true 5).
Proof. reflexivity. Qed.
