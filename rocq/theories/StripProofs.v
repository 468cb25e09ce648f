(* StripProofs.v - lemmas about Strip.v *)
From Verif Require Import Base Uniq Divers DiversProofs Spacing SpacingProofs Strip.
From Coq Require Import Lqa.

(* ------------------------------------------------------------------ *)
(** * Generic *)
Lemma mapR_row {A} (d : A) data : forall idx,
  (forall i, In i idx -> (i < length data)%nat) ->
  mapR (row data) idx = Ok (map (fun i => nth i data d) idx).
Proof.
  induction idx as [|i t IH]; intros H; auto; cbn [mapR map].
  rewrite (row_ok data i d) by (apply H; left; auto); cbn [bind].
  rewrite IH by (intros j Hj; apply H; right; auto); reflexivity.
Qed.

Lemma first_index_spec a l : In a l ->
  (first_index a l < length l)%nat /\ nth (first_index a l) l 0 = a /\
  forall j, (j < first_index a l)%nat -> nth j l 0 <> a.
Proof.
  intros H; unfold first_index; destruct (index_of_in a l H) as [i Hi]; rewrite Hi.
  destruct (index_of_some _ _ _ Hi) as [H1 [H2 H3]]; split; auto; split.
  - apply nth_error_nth; auto.
  - intros j Hj E; apply (H3 j Hj); rewrite (nth_error_nth' l 0) by lia; congruence.
Qed.

Lemma first_index_nodup l i : NoDup l -> (i < length l)%nat -> first_index (nth i l 0) l = i.
Proof.
  intros Hn Hi; unfold first_index.
  rewrite (index_of_nodup (nth i l 0) l i); auto; apply nth_error_nth'; auto.
Qed.

(* ------------------------------------------------------------------ *)
(** * C13 *)
Section C13.
Variable ps : list panel.
Definition plies_at (i : nat) : Z := nth i (n_plies_of ps) 0.

Lemma strip_sorted : StronglySorted Z.lt (strip_plies ps).
Proof. apply uniq_ssorted. Qed.

Lemma strip_in n : In n (strip_plies ps) <-> exists p, In p ps /\ p_nplies p = n.
Proof.
  unfold strip_plies, n_plies_of; rewrite uniq_in, in_map_iff; split; intros [p [H1 H2]]; eauto.
Qed.

Lemma guide_length : length (ind_panels_guide ps) = length ps.
Proof. unfold ind_panels_guide, n_plies_of; rewrite !map_length; auto. Qed.
Lemma reduc_length : length (ind_for_reduc ps) = length (strip_plies ps).
Proof. unfold ind_for_reduc; rewrite map_length; auto. Qed.

Lemma guide_spec i : (i < length ps)%nat ->
  let k := nth i (ind_panels_guide ps) 0%nat in
  (k < length (strip_plies ps))%nat /\ nth k (strip_plies ps) 0 = plies_at i.
Proof.
  intros Hi; cbn zeta; unfold ind_panels_guide.
  set (f := fun n => first_index n (strip_plies ps)).
  rewrite (nth_indep (map f (n_plies_of ps)) 0%nat (f 0)) by
    (unfold n_plies_of; rewrite !map_length; auto).
  rewrite (map_nth f); fold (plies_at i); unfold f.
  assert (Hin : In (plies_at i) (strip_plies ps)).
  { unfold strip_plies; rewrite uniq_in; apply nth_In; unfold n_plies_of; rewrite map_length; auto. }
  destruct (first_index_spec _ _ Hin) as [H1 [H2 _]]; auto.
Qed.

Lemma reduc_spec k : (k < length (strip_plies ps))%nat ->
  let i := nth k (ind_for_reduc ps) 0%nat in
  (i < length ps)%nat /\ plies_at i = nth k (strip_plies ps) 0 /\
  (forall j, (j < i)%nat -> plies_at j <> nth k (strip_plies ps) 0) /\
  nth i (ind_panels_guide ps) 0%nat = k.
Proof.
  intros Hk; cbn zeta; unfold ind_for_reduc.
  set (f := fun n => first_index n (n_plies_of ps)).
  rewrite (nth_indep (map f (strip_plies ps)) 0%nat (f 0)) by (rewrite map_length; auto).
  rewrite (map_nth f); unfold f.
  assert (Hin : In (nth k (strip_plies ps) 0) (n_plies_of ps)).
  { rewrite <- uniq_in; apply nth_In; auto. }
  destruct (first_index_spec _ _ Hin) as [H1 [H2 H3]].
  assert (H1' : (first_index (nth k (strip_plies ps) 0%Z) (n_plies_of ps) < length ps)%nat)
    by (unfold n_plies_of in *; rewrite map_length in H1; exact H1).
  split; auto; split; auto; split; auto.
  destruct (guide_spec _ H1') as [G1 G2].
  unfold plies_at in G2; rewrite H2 in G2.
  apply (NoDup_nth (strip_plies ps) 0); auto. apply uniq_nodup.
Qed.

Lemma reduce_extend {A} (d : A) (data : list A) :
  length data = length (strip_plies ps) ->
  exists full, extend_after_guide_based_blending ps data = Ok full /\
    length full = length ps /\
    (forall i, (i < length ps)%nat ->
       exists k, (k < length data)%nat /\ nth k (strip_plies ps) 0 = plies_at i /\
                 nth_error full i = nth_error data k) /\
    reduce_for_guide_based_blending ps full = Ok data.
Proof.
  intros L; unfold extend_after_guide_based_blending.
  rewrite (mapR_row d); [|].
  2: { intros k Hk; apply In_nth with (d := 0%nat) in Hk; destruct Hk as [i [Hi <-]].
       rewrite guide_length in Hi; destruct (guide_spec i Hi); lia. }
  eexists; split; [reflexivity|].
  assert (Lf : length (map (fun i => nth i data d) (ind_panels_guide ps)) = length ps)
    by (rewrite map_length; apply guide_length).
  assert (N : forall i, (i < length ps)%nat ->
    nth i (map (fun i => nth i data d) (ind_panels_guide ps)) d =
    nth (nth i (ind_panels_guide ps) 0%nat) data d).
  { intros i Hi; set (f := fun i => nth i data d).
    rewrite (nth_indep (map f (ind_panels_guide ps)) d (f 0%nat)) by
      (rewrite map_length, guide_length; auto). apply (map_nth f). }
  split; [exact Lf|]; split.
  - intros i Hi; destruct (guide_spec i Hi) as [G1 G2].
    exists (nth i (ind_panels_guide ps) 0%nat); split; [lia|]; split; auto.
    rewrite (nth_error_nth' _ d) by (rewrite Lf; auto).
    rewrite (nth_error_nth' data d) by lia; f_equal; apply N; auto.
  - unfold reduce_for_guide_based_blending.
    rewrite (mapR_row d).
    2: { intros i Hi; apply In_nth with (d := 0%nat) in Hi; destruct Hi as [k [Hk <-]].
         rewrite reduc_length in Hk; rewrite Lf; apply reduc_spec; auto. }
    f_equal; apply (list_ext _ _ d).
    + rewrite map_length, reduc_length; auto.
    + intros k Hk; rewrite map_length, reduc_length in Hk.
      set (f := fun i => nth i (map (fun i => nth i data d) (ind_panels_guide ps)) d).
      rewrite (nth_indep (map f (ind_for_reduc ps)) d (f 0%nat)) by
        (rewrite map_length, reduc_length; auto).
      rewrite (map_nth f); unfold f.
      destruct (reduc_spec k Hk) as [R1 [_ [_ R4]]]; rewrite N by auto; rewrite R4; auto.
Qed.

Lemma extend_reduce {A} (d : A) (full : list A) :
  length full = length ps ->
  (forall i j, (i < length ps)%nat -> (j < length ps)%nat -> plies_at i = plies_at j ->
     nth_error full i = nth_error full j) ->
  exists data, reduce_for_guide_based_blending ps full = Ok data /\
    length data = length (strip_plies ps) /\
    extend_after_guide_based_blending ps data = Ok full.
Proof.
  intros L H; unfold reduce_for_guide_based_blending.
  rewrite (mapR_row d).
  2: { intros i Hi; apply In_nth with (d := 0%nat) in Hi; destruct Hi as [k [Hk <-]].
       rewrite reduc_length in Hk; rewrite L; apply reduc_spec; auto. }
  eexists; split; [reflexivity|].
  set (f := fun i => nth i full d).
  split; [rewrite map_length; apply reduc_length|].
  unfold extend_after_guide_based_blending; rewrite (mapR_row d).
  2: { intros k Hk; apply In_nth with (d := 0%nat) in Hk; destruct Hk as [i [Hi <-]].
       rewrite guide_length in Hi; destruct (guide_spec i Hi).
       rewrite map_length, reduc_length; auto. }
  f_equal; apply (list_ext _ _ d); [rewrite map_length, guide_length; auto|].
  intros i Hi; rewrite map_length, guide_length in Hi.
  set (g := fun k => nth k (map f (ind_for_reduc ps)) d).
  rewrite (nth_indep (map g (ind_panels_guide ps)) d (g 0%nat)) by
    (rewrite map_length, guide_length; auto).
  rewrite (map_nth g); unfold g.
  destruct (guide_spec i Hi) as [G1 G2].
  set (k := nth i (ind_panels_guide ps) 0%nat) in *.
  rewrite (nth_indep (map f (ind_for_reduc ps)) d (f 0%nat)) by
    (rewrite map_length, reduc_length; auto).
  rewrite (map_nth f); unfold f.
  destruct (reduc_spec k G1) as [R1 [R2 _]].
  specialize (H (nth k (ind_for_reduc ps) 0%nat) i R1 Hi ltac:(congruence)).
  rewrite (nth_error_nth' full d) in H by lia; rewrite (nth_error_nth' full d) in H by lia.
  injection H as H; exact H.
Qed.

Lemma strip_perm qs : Permutation ps qs -> strip_plies ps = strip_plies qs.
Proof.
  intros H; apply ssorted_ext; try apply uniq_ssorted.
  intros n; unfold strip_plies; rewrite !uniq_in; unfold n_plies_of.
  split; apply Permutation_in, Permutation_map; [|symmetry]; exact H.
Qed.
End C13.

(* ------------------------------------------------------------------ *)
(** * C14 *)
Lemma ref_loop_spec r : forall l index,
  StronglySorted Z.lt l -> l <> [] -> nth 0 l 0 < r -> r < last l 0 ->
  exists k, ref_loop l index r = Ok (index + k)%nat /\ (k < length l)%nat /\
    r <= nth k l 0 /\ forall j, (j < k)%nat -> nth j l 0 < r.
Proof.
  induction l as [|n1 [|n2 t] IH]; intros index Hs Hne H0 Hl; [congruence|cbn in *; lia|].
  change (ref_loop (n1 :: n2 :: t) index r) with
    (if ((n1 <? r) && (r <=? n2))%bool then Ok (S index) else ref_loop (n2 :: t) (S index) r).
  cbn [nth] in H0.
  destruct (Z.ltb_spec n1 r); [|lia]. destruct (Z.leb_spec r n2); cbn [andb].
  - exists 1%nat; rewrite Nat.add_1_r; split; auto; split; [cbn; lia|].
    split; [cbn; lia|]. intros [|j] Hj; [cbn; auto | lia].
  - inversion Hs; subst.
    destruct (IH (S index)) as [k [E [H2' [H3' H4']]]]; auto; [discriminate|].
    exists (S k); rewrite E; split; [f_equal; lia|]. split; [cbn in *; lia|].
    split; [cbn [nth]; auto|]. intros [|j] Hj; [cbn; auto | cbn [nth]; apply H4'; lia].
Qed.

Lemma ind_ref_spec plies r :
  StronglySorted Z.lt plies -> plies <> [] ->
  exists k, ind_ref plies r = Ok k /\ (k < length plies)%nat /\
    (forall j, (j < k)%nat -> nth j plies 0 < r) /\
    (r <= nth k plies 0 \/
     (k = (length plies - 1)%nat /\ forall j, (j < length plies)%nat -> nth j plies 0 < r)).
Proof.
  intros Hs Hne; unfold ind_ref; destruct plies as [|n0 t]; [congruence|].
  set (l := n0 :: t) in *.
  destruct (Z.leb_spec r n0).
  - exists 0%nat; split; auto; split; [cbn; lia|]. split; [lia|]. left; exact H.
  - assert (Hlast : nth (length l - 1) l 0 = last l 0).
    { destruct (exists_last Hne) as [l' [x E]]; rewrite E.
      rewrite last_last, app_length; cbn [length].
      rewrite app_nth2 by lia; replace (length l' + 1 - 1 - length l')%nat with 0%nat by lia; auto. }
    assert (Ll : (0 < length l)%nat) by (cbn; lia).
    destruct (Z.leb_spec (last l 0) r).
    + exists (length l - 1)%nat; split; auto; split; [lia|].
      assert (Hj : forall j, (j < length l - 1)%nat -> nth j l 0 < r).
      { intros j Hj; pose proof (ssorted_nth Z.lt l j (length l - 1) 0 Hs ltac:(lia)); lia. }
      split; auto.
      destruct (Z.eq_dec (last l 0) r); [left; lia|].
      right; split; auto; intros j Hj'.
      destruct (Nat.eq_dec j (length l - 1)); [subst; lia | apply Hj; lia].
    + destruct (ref_loop_spec r l 0 Hs Hne) as [k [E [H1 [H2 H3]]]]; auto.
      exists k; rewrite E; auto.
Qed.

(* ------------------------------------------------------------------ *)
(** * C41 *)
Lemma weight_terms_spec density : forall ps ind sst,
  (ind + length ps <= length sst)%nat ->
  exists l, weight_terms sst ind ps = Ok l /\ length l = length ps /\
   ((forall i, (i < length ps)%nat ->
      Z.of_nat (countb (fun x => negb (x =? -1)) (nth (ind + i) sst [])) = plies_at ps i) ->
    (density * sumQ l == calc_weight ps density)%Q).
Proof.
  induction ps as [|p t IH]; intros ind sst H; cbn [weight_terms].
  - exists []; repeat split; auto; intros; unfold calc_weight; cbn; reflexivity.
  - cbn [length] in H; rewrite (row_ok sst ind []) by lia; cbn [bind].
    destruct (IH (S ind) sst ltac:(lia)) as [l [-> [Ll Hl]]]; cbn [bind].
    eexists; split; [reflexivity|]; split; [cbn; lia|]. intros X.
    assert (X0 := X 0%nat ltac:(cbn; lia)); rewrite Nat.add_0_r in X0.
    unfold plies_at in X0; cbn [n_plies_of map nth] in X0.
    rewrite X0.
    assert (Ht : (density * sumQ l == calc_weight t density)%Q).
    { apply Hl; intros i Hi; specialize (X (S i) ltac:(cbn; lia)).
      rewrite Nat.add_succ_r in X; exact X. }
    unfold calc_weight in *; cbn [sumQ fold_right map]; fold (sumQ l).
    fold (sumQ (map (fun p => (p_area p * inject_Z (p_nplies p))%Q) t)).
    rewrite !Qmult_plus_distr_r, Ht; reflexivity.
Qed.

Lemma calc_weight_from_sst_spec ps sst density :
  (length ps <= length sst)%nat ->
  (forall i, (i < length ps)%nat ->
     Z.of_nat (countb (fun x => negb (x =? -1)) (nth i sst [])) = plies_at ps i) ->
  exists w, calc_weight_from_sst ps sst density = Ok w /\ (w == calc_weight ps density)%Q.
Proof.
  intros H X; unfold calc_weight_from_sst.
  destruct (weight_terms_spec density ps 0 sst H) as [l [-> [_ Hl]]]; cbn [bind].
  eexists; split; [reflexivity|]; apply Hl; exact X.
Qed.

Lemma sumQ_cons a l : sumQ (a :: l) = (a + sumQ l)%Q.
Proof. reflexivity. Qed.
Lemma sumQ_app l m : (sumQ (l ++ m) == sumQ l + sumQ m)%Q.
Proof.
  induction l as [|a l IH]; cbn [app]; rewrite ?sumQ_cons.
  - change (sumQ []) with 0%Q; ring.
  - rewrite IH; ring.
Qed.

Lemma calc_weight_app ps qs density :
  (calc_weight (ps ++ qs) density == calc_weight ps density + calc_weight qs density)%Q.
Proof. unfold calc_weight; rewrite map_app, sumQ_app; ring. Qed.

Lemma calc_weight_per_panel_sum ps density :
  (sumQ (calc_weight_per_panel ps density) == calc_weight ps density)%Q.
Proof.
  unfold calc_weight_per_panel, calc_weight; induction ps as [|p t IH]; cbn [map]; rewrite ?sumQ_cons.
  - change (sumQ []) with 0%Q; ring.
  - rewrite IH; ring.
Qed.

(* ------------------------------------------------------------------ *)
(** * C43 *)
Section Steps.
Variables (sym : bool) (plies : list Z) (ref : nat).
Let d := drop_unit sym.
Hypothesis Hs : StronglySorted Z.lt plies.
Hypothesis Href : (ref < length plies)%nat.
(** symmetric laminates: the ply counts all have the same parity *)
Hypothesis Hpar : sym = true -> forall i, (i < length plies)%nat ->
  Z.even (nth i plies 0) = Z.even (nth ref plies 0).
Let nref := nth ref plies 0.

Lemma d_pos : 1 <= d <= 2. Proof. unfold d, drop_unit; destruct sym; lia. Qed.

Lemma congr i : (i < length plies)%nat -> exists q, nref - nth i plies 0 = d * q.
Proof.
  intros Hi; unfold d, drop_unit; destruct sym eqn:E; [|exists (nref - nth i plies 0); lia].
  specialize (Hpar eq_refl i Hi); fold nref in Hpar.
  destruct (Z.even nref) eqn:E1.
  - apply Z.even_spec in E1, Hpar; destruct E1 as [a Ha], Hpar as [b Hb].
    exists (a - b); lia.
  - rewrite <- Z.negb_odd, negb_false_iff in E1, Hpar.
    apply Z.odd_spec in E1, Hpar; destruct E1 as [a Ha], Hpar as [b Hb].
    exists (a - b); lia.
Qed.

Lemma mono i j : (i < j < length plies)%nat -> nth i plies 0 + d <= nth j plies 0.
Proof.
  intros H; pose proof (ssorted_nth Z.lt plies i j 0 Hs H).
  destruct (congr i ltac:(lia)) as [a Ha], (congr j ltac:(lia)) as [b Hb].
  pose proof d_pos as Hd.
  assert (E : nth j plies 0 - nth i plies 0 = d * (a - b)) by lia.
  assert (1 <= a - b) by nia.
  assert (d * 1 <= d * (a - b)) by (apply Z.mul_le_mono_nonneg_l; lia).
  lia.
Qed.

(** a multiple of d that is at most 0 and more than -d is 0 *)
Lemma mult_zero x : - d < d * x -> d * x <= 0 -> d * x = 0.
Proof. pose proof d_pos as Hd; intros H1 H2; assert (x = 0) by nia; subst; lia. Qed.

(** row [k] of the thick-to-thin table *)
Definition thin_row (k : nat) (s : step) : Prop :=
  exists i, (i < ref)%nat /\ s_panel s = Z.of_nat i /\ s_panel_plies s = nth i plies 0 /\
    s_before s = nref - d * Z.of_nat k /\ s_after s = s_before s - d /\
    nth i plies 0 <= s_after s /\ s_before s <= nth (S i) plies 0 /\
    (s_new s = true <-> s_before s = nth (S i) plies 0) /\
    s_designed s = Z.of_nat (ref - 1 - i).

Lemma thin_step_row k s :
  thin_row k s -> nth 0 plies 0 <= s_after s - d ->
  exists s', thin_step sym plies s = Ok s' /\ thin_row (S k) s'.
Proof.
  intros [i [Hi [H1 [H2 [H3 [H4 [H5 [H6 [H7 H8]]]]]]]]] Hmin.
  unfold thin_step; fold d; pose proof d_pos as Hd.
  destruct (Z.ltb_spec (s_after s - d) (s_panel_plies s)) as [L|L].
  - destruct (congr i ltac:(lia)) as [q Hq].
    assert (Ea : s_after s = nth i plies 0).
    { pose proof (mult_zero (Z.of_nat k + 1 - q)); lia. }
    destruct i as [|i]; [lia|].
    rewrite H1; replace (Z.of_nat (S i) - 1) with (Z.of_nat i) by lia.
    rewrite (get_ok plies i 0) by lia; cbn [bind].
    eexists; split; [reflexivity|]; exists i; cbn [s_panel s_panel_plies s_after s_before s_new s_designed].
    pose proof (mono i (S i) ltac:(lia)).
    repeat split; auto; try lia.
  - eexists; split; [reflexivity|]; exists i; cbn [s_panel s_panel_plies s_after s_before s_new s_designed].
    repeat split; auto; try lia; discriminate.
Qed.

Lemma thin_steps_rows : forall n k s,
  thin_row k s -> nth 0 plies 0 + d * Z.of_nat n <= s_after s ->
  exists t, steps (thin_step sym plies) n s = Ok t /\ length t = S n /\
    forall j, (j <= n)%nat -> exists r, nth_error t j = Some r /\ thin_row (k + j) r.
Proof.
  induction n as [|n IH]; intros k s Hr Hm; cbn [steps].
  - exists [s]; repeat split; auto; intros j Hj; assert (j = 0%nat) as -> by lia.
    exists s; rewrite Nat.add_0_r; auto.
  - pose proof d_pos as Hd.
    destruct (thin_step_row k s Hr ltac:(nia)) as [s' [-> Hr']]; cbn [bind].
    destruct (IH (S k) s' Hr') as [t [-> [Lt Ht]]].
    { destruct Hr as [i [_ [_ [_ [B [A _]]]]]], Hr' as [i' [_ [_ [_ [B' [A' _]]]]]]; nia. }
    cbn [bind]; exists (s :: t); split; auto; split; [cbn; lia|].
    intros [|j] Hj; [exists s; rewrite Nat.add_0_r; auto|].
    destruct (Ht j ltac:(lia)) as [r [E R]]; exists r; split; auto.
    replace (k + S j)%nat with (S k + j)%nat by lia; auto.
Qed.

Definition n_thin : nat := Z.to_nat ((nref - nth 0 plies 0) / d).

Lemma halve_div n : halve sym n = n / d.
Proof. unfold halve, d, drop_unit; destruct sym; auto; rewrite Z.div_1_r; auto. Qed.

Lemma thin_table_spec :
  (ref = 0%nat -> thin_table sym plies ref = Ok None) /\
  ((0 < ref)%nat -> exists t, thin_table sym plies ref = Ok (Some t) /\
     nref - nth 0 plies 0 = d * zlen t /\
     forall k, (k < length t)%nat -> exists r, nth_error t k = Some r /\ thin_row k r).
Proof.
  unfold thin_table; fold nref; rewrite halve_div; fold d; split.
  - intros E0; unfold nref; rewrite E0, Z.sub_diag, Z.div_0_l by (pose proof d_pos; lia); reflexivity.
  - intros Hr; pose proof d_pos as Hd; pose proof (mono 0 ref ltac:(lia)) as M; fold nref in M.
    destruct (congr 0 ltac:(lia)) as [q Hq]; rewrite Hq.
    replace (d * q / d) with q by (rewrite Z.mul_comm, Z.div_mul; lia).
    assert (1 <= q) by nia.
    destruct (Z.eqb_spec q 0); [lia|].
    replace (Z.of_nat ref - 1) with (Z.of_nat (ref - 1)) by lia.
    rewrite (get_ok plies (ref - 1) 0) by lia; cbn [bind].
    match goal with |- context [steps _ _ ?s0] =>
      destruct (thin_steps_rows (Z.to_nat q - 1) 0 s0) as [t [-> [Lt Ht]]] end.
    + exists (ref - 1)%nat; cbn [s_panel s_panel_plies s_after s_before s_new s_designed].
      replace (S (ref - 1)) with ref by lia; fold nref.
      pose proof (mono (ref - 1) ref ltac:(lia)) as M1; fold nref in M1.
      repeat split; auto; try lia.
    + cbn [s_after]; nia.
    + cbn [bind]; exists t; split; auto; split; [unfold zlen; rewrite Lt; nia|].
      intros k Hk; destruct (Ht k ltac:(lia)) as [r [E R]]; exists r; auto.
Qed.

(** row [k] of the thin-to-thick table *)
Definition thick_row (k : nat) (s : step) : Prop :=
  exists i, (ref <= i)%nat /\ (S i < length plies)%nat /\
    s_panel s = Z.of_nat (S i) /\ s_panel_plies s = nth (S i) plies 0 /\
    s_before s = nref + d * Z.of_nat k /\ s_after s = s_before s + d /\
    s_after s <= nth (S i) plies 0 /\ nth i plies 0 <= s_before s /\
    (s_new s = true <-> s_before s = nth i plies 0) /\
    s_designed s = Z.of_nat (i - ref).

Lemma last_nth (l : list Z) : l <> [] -> last l 0 = nth (length l - 1) l 0.
Proof.
  intros H; destruct (exists_last H) as [l' [x ->]].
  rewrite last_last, app_length; cbn [length].
  rewrite app_nth2 by lia; replace (length l' + 1 - 1 - length l')%nat with 0%nat by lia; auto.
Qed.

Lemma plies_ne : plies <> []. Proof. intros E; rewrite E in Href; cbn in Href; lia. Qed.

Lemma thick_step_row k s :
  thick_row k s -> s_after s + d <= last plies 0 ->
  exists s', thick_step sym plies s = Ok s' /\ thick_row (S k) s'.
Proof.
  intros [i [Hi [Hi2 [H1 [H2 [H3 [H4 [H5 [H6 [H7 H8]]]]]]]]]] Hmax.
  rewrite last_nth in Hmax by apply plies_ne.
  unfold thick_step; fold d; pose proof d_pos as Hd.
  destruct (Z.ltb_spec (s_panel_plies s) (s_after s + d)) as [L|L].
  - destruct (congr (S i) ltac:(lia)) as [q Hq].
    assert (Ea : s_after s = nth (S i) plies 0).
    { pose proof (mult_zero (Z.of_nat k + 1 + q)); lia. }
    destruct (Nat.eq_dec (S i) (length plies - 1)) as [E|E]; [rewrite <- E in Hmax; lia|].
    rewrite H1; replace (Z.of_nat (S i) + 1) with (Z.of_nat (S (S i))) by lia.
    rewrite (get_ok plies (S (S i)) 0) by lia; cbn [bind].
    eexists; split; [reflexivity|]; exists (S i); cbn [s_panel s_panel_plies s_after s_before s_new s_designed].
    pose proof (mono (S i) (S (S i)) ltac:(lia)).
    repeat split; auto; try lia.
  - eexists; split; [reflexivity|]; exists i; cbn [s_panel s_panel_plies s_after s_before s_new s_designed].
    repeat split; auto; try lia; discriminate.
Qed.

Lemma thick_steps_rows : forall n k s,
  thick_row k s -> s_after s + d * Z.of_nat n <= last plies 0 ->
  exists t, steps (thick_step sym plies) n s = Ok t /\ length t = S n /\
    forall j, (j <= n)%nat -> exists r, nth_error t j = Some r /\ thick_row (k + j) r.
Proof.
  induction n as [|n IH]; intros k s Hr Hm; cbn [steps].
  - exists [s]; repeat split; auto; intros j Hj; assert (j = 0%nat) as -> by lia.
    exists s; rewrite Nat.add_0_r; auto.
  - pose proof d_pos as Hd.
    destruct (thick_step_row k s Hr ltac:(nia)) as [s' [-> Hr']]; cbn [bind].
    destruct (IH (S k) s' Hr') as [t [-> [Lt Ht]]].
    { destruct Hr as [i [_ [_ [_ [_ [B [A _]]]]]]], Hr' as [i' [_ [_ [_ [_ [B' [A' _]]]]]]]; nia. }
    cbn [bind]; exists (s :: t); split; auto; split; [cbn; lia|].
    intros [|j] Hj; [exists s; rewrite Nat.add_0_r; auto|].
    destruct (Ht j ltac:(lia)) as [r [E R]]; exists r; split; auto.
    replace (k + S j)%nat with (S k + j)%nat by lia; auto.
Qed.

Lemma thick_table_spec :
  (S ref = length plies -> thick_table sym plies ref = Ok None) /\
  ((S ref < length plies)%nat -> exists t, thick_table sym plies ref = Ok (Some t) /\
     last plies 0 - nref = d * zlen t /\
     forall k, (k < length t)%nat -> exists r, nth_error t k = Some r /\ thick_row k r).
Proof.
  unfold thick_table; fold nref; rewrite halve_div; fold d.
  assert (HL := last_nth plies plies_ne); split.
  - intros E; rewrite HL; replace (length plies - 1)%nat with ref by lia; fold nref.
    rewrite Z.sub_diag, Z.div_0_l by (pose proof d_pos; lia); reflexivity.
  - intros Hr; pose proof d_pos as Hd.
    pose proof (mono ref (length plies - 1) ltac:(lia)) as M; fold nref in M; rewrite <- HL in M.
    destruct (congr (length plies - 1) ltac:(lia)) as [q Hq]; rewrite <- HL in Hq.
    replace (last plies 0 - nref) with (- q * d) by lia; rewrite Z.div_mul by lia.
    assert (1 <= - q) by nia.
    destruct (Z.eqb_spec (- q) 0); [lia|].
    replace (Z.of_nat ref + 1) with (Z.of_nat (S ref)) by lia.
    rewrite (get_ok plies (S ref) 0) by lia; cbn [bind].
    match goal with |- context [steps _ _ ?s0] =>
      destruct (thick_steps_rows (Z.to_nat (- q) - 1) 0 s0) as [t [-> [Lt Ht]]] end.
    + exists ref; cbn [s_panel s_panel_plies s_after s_before s_new s_designed]; fold nref.
      pose proof (mono ref (S ref) ltac:(lia)) as M1; fold nref in M1.
      repeat split; auto; try lia.
    + cbn [s_after]; nia.
    + cbn [bind]; exists t; split; auto; split; [unfold zlen; rewrite Lt; nia|].
      intros k Hk; destruct (Ht k ltac:(lia)) as [r [E R]]; exists r; auto.
Qed.
End Steps.
