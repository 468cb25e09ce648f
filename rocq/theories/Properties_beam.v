(* Properties_beam.v - C31: the nodes of the beam search. *)
From Coq Require Import Lqa.
From Verif Require Import Base Constraints Guidelines SpecGuidelines GuidelinesProofs Format FormatProofs
  PdlTools PdlToolsProofs GroupFilters GroupFiltersProofs Properties_filters
  Pruning PruningProofs Properties_pruning Divide DivideProofs Moments MomentsProofs Properties_moments Search SearchProofs Properties_search Beam BeamProofs.
Local Open Scope Z_scope.

(** objective values below the marks used by the pruning of nodes *)
Definition scores_bounded (pb : problem) : Prop :=
  forall l x, (-6666 < p_score pb l x)%Q /\ (p_score pb l x < 6666)%Q.

(** the columns of the symmetric layout and the panels' ply counts [ns]; the matrix of
    lamination parameters is the one of the code *)
Definition well_posed (pb : problem) (cos_sin : Z -> nat -> Q) (n_max : nat) (ns : list nat) : Prop :=
  length ns = length (p_pdl pb) /\ length (p_mat pb) = length (p_pdl pb) /\
  p_n pb = length (ply_order true n_max) /\
  forall i, (i < length (p_pdl pb))%nat ->
    let row := nth i (p_pdl pb) [] in let n := nth i ns 0%nat in
    (1 <= n)%nat /\ length row = length (ply_order true n_max) /\ (forall x, In x row -> -1 <= x) /\
    countb kept row = length (ply_order true n) /\
    lampam_matrix row (delta_lampams true cos_sin n) = Ok (nth i (p_mat pb) []).

(** At the end of the search of a symmetric laminate there is for every surviving node one
    sequence [h] of angles such that every panel has exactly the angles of [h] kept by its
    line of the layout, its full stack has its required ply count and is symmetric, and the
    recorded lamination parameters are those of the stack. There is at least one node and
    not more than the limit. *)
Theorem C31_nodes_blended_partial : forall pb cos_sin n_max ns t,
  sym (p_cons pb) = true -> scores_bounded pb -> well_posed pb cos_sin n_max ns -> (1 <= n_max)%nat -> (1 <= p_global_final pb)%nat ->
  beam pb (ply_order true n_max) = Ok t ->
  exists hs : list (list Z),
    (1 <= length hs <= p_global_final pb)%nat /\ length (t_ss t) = length hs /\ length (t_num t) = length hs /\
    forall k, (k < length hs)%nat ->
      let h := nth k hs [] in
      length h = p_n pb /\
      forall i, (i < length (p_pdl pb))%nat ->
        nth i (nth k (t_ss t) []) ([], []) = (selected h (nth i (p_pdl pb) []), []) /\
        exists s, final_stack true (nth i ns 0%nat) (nth i (nth k (t_ss t) []) ([], [])) = Ok s /\
          length s = nth i ns 0%nat /\ s = rev s /\
          firstn (length (ply_order true (nth i ns 0%nat))) s = selected h (nth i (p_pdl pb) []) /\
          forall q, (fst (nth i (nth k (t_num t) []) (lampam_zero, [])) q == lamination_parameter cos_sin s q)%Q.
Proof.
  intros pb cs n_max ns t Hs Hb (W1 & W2 & W3 & W4) Hmax Hg X.
  assert (Np : ply_order true n_max <> []).
  { unfold ply_order; intros N. apply (f_equal (@length nat)) in N; rewrite seq_length in N; cbn [length] in N.
    pose proof (n_half_spec n_max); lia. }
  destruct (beam_ok pb _ t (eq_sym W2) (fun l x => proj1 (Hb l x)) (fun l x => proj2 (Hb l x)) X Np) as [hs [[I1 [I2 _]] [R [C1 C2]]]].
  exists hs. split.
  { split; [|exact C1]. specialize (C2 Hg). destruct hs; [congruence|cbn; lia]. }
  split; [rewrite I1, map_length; reflexivity|]. split; [rewrite I2, map_length; reflexivity|].
  intros k Hk h.
  assert (Hh : In h hs) by (apply nth_In; exact Hk).
  pose proof (reach_length _ _ _ (R h Hh)) as Lh.
  split; [rewrite W3; exact Lh|]. intros i Hi.
  destruct (W4 i Hi) as (V1 & V2 & V3 & V4 & V5).
  set (row := nth i (p_pdl pb) []) in *. set (n := nth i ns 0%nat) in *. set (m := nth i (p_mat pb) []) in *.
  assert (Ein : nth i (List.combine (p_pdl pb) (p_mat pb)) ([], []) = (row, m)).
  { rewrite combine_nth by auto; reflexivity. }
  assert (Lc : length (List.combine (p_pdl pb) (p_mat pb)) = length (p_pdl pb)) by (rewrite combine_length; lia).
  assert (E1 : nth k (t_ss t) [] = ss_of pb (ply_order true n_max) h).
  { rewrite I1. rewrite (nth_indep _ [] (ss_of pb (ply_order true n_max) [])) by (rewrite map_length; exact Hk). apply map_nth. }
  assert (E2 : nth k (t_num t) [] = num_of pb (last (ply_order true n_max) 0%nat) (ply_order true n_max) h).
  { rewrite I2. rewrite (nth_indep _ [] (num_of pb (last (ply_order true n_max) 0%nat) (ply_order true n_max) [])) by (rewrite map_length; exact Hk). apply map_nth. }
  destruct (C22_sym_accumulated_lampam_partial cs n_max n row h V1 V2 ltac:(rewrite Lh; symmetry; exact V2) V3 V4) as [M [s [EM [F1 [F2 [F3 [F4 F5]]]]]]].
  rewrite V5 in EM; injection EM as EM; fold m in EM; subst M.
  assert (Ebot : nd_bot (search true row m node0 (ply_order true n_max) h) = selected h row /\ nd_top (search true row m node0 (ply_order true n_max) h) = []).
  { assert (Po : ply_order true n_max = seq 0 (length row)).
    { unfold ply_order in V2 |- *; rewrite seq_length in V2; rewrite V2; reflexivity. }
    rewrite Po. destruct (search_sym row _ m h node0 V5) as [S1 [S2 _]]; auto. lia. }
  destruct Ebot as [Eb Et].
  assert (E3 : nth i (ss_of pb (ply_order true n_max) h) ([], []) = (selected h row, [])).
  { unfold ss_of.
    match goal with |- context [map ?f (List.combine (p_pdl pb) (p_mat pb))] => rewrite (nth_indep _ ([], []) (f ([], []))) by (rewrite map_length, Lc; exact Hi); rewrite (map_nth f) end.
    cbv beta; rewrite Ein. unfold panel_node; cbn [fst snd]. rewrite Hs, Eb, Et; reflexivity. }
  split; [rewrite E1; exact E3|].
  exists s. rewrite E1, E3, E2. split.
  { unfold final_stack; cbn [fst snd]. unfold full_stack in F1 |- *; cbn [nd_bot nd_top]. rewrite Eb in F1. exact F1. }
  split; [exact F2|]. split; [exact F3|]. split; [exact F4|].
  intros q. unfold num_of.
  match goal with |- context [map ?f (List.combine (p_pdl pb) (p_mat pb))] => rewrite (nth_indep _ (lampam_zero, []) (f ([], []))) by (rewrite map_length, Lc; exact Hi); rewrite (map_nth f) end.
  cbv beta; rewrite Ein. cbn [fst snd]. unfold panel_node; cbn [fst snd]; rewrite Hs. apply F5.
Qed.

(* ------------------------------------------------------------------ *)
(** ** The recorded ply counts *)

(** the ply of angle [a] is counted at the position [j] of the set of angles *)
Definition of_index (c : cons) (j : nat) (a : Z) : bool :=
  match ind_angle (set_of_angles c) a with Some k => Nat.eqb k j | None => false end.

(** "has a middle ply" is about the structure; the last column of the layout is kept by the
    panels of an odd number of plies only *)
Definition middle_column (pb : problem) (ns : list nat) : Prop :=
  forall i, (i < length (p_pdl pb))%nat ->
    if p_middle pb then kept (last (nth i (p_pdl pb) []) (-1)) = Nat.odd (nth i ns 0%nat)
    else Nat.odd (nth i ns 0%nat) = false.

Lemma selected_snoc g a p x : length g = length p ->
  selected (g ++ [a]) (p ++ [x]) = selected g p ++ (if kept x then [a] else []).
Proof.
  revert p; induction g as [|y g IH]; intros [|z p] L; try discriminate L.
  - unfold selected; cbn. destruct (kept x); reflexivity.
  - cbn in L. specialize (IH p ltac:(lia)). unfold selected in *; cbn [app List.combine filter snd].
    destruct (kept z); cbn [map fst]; rewrite IH; reflexivity.
Qed.
Lemma firstn_snoc {A} (d : A) k l : (k < length l)%nat -> firstn (S k) l = firstn k l ++ [nth k l d].
Proof. revert l; induction k as [|k IH]; intros [|x l] H; cbn in *; try lia; auto. f_equal; apply IH; lia. Qed.
Lemma counts_length pb e row : forall ls h ct, length (counts_of pb e row ls h ct) = length ct.
Proof.
  induction ls as [|l ls IH]; intros [|a h] ct; cbn [counts_of]; auto. rewrite IH. unfold grow_counts.
  destruct (0 <=? _); [destruct (ind_angle _ _)|]; auto. apply upd_length.
Qed.
Lemma grow_counts_nth c half l row a ct j : (j < length ct)%nat ->
  (nth j (grow_counts (set_of_angles c) half l row a ct) 0 ==
   nth j ct 0 + (if ((0 <=? nth l row (-1)) && of_index c j a)%Z%bool then if half then 1 # 2 else 1 else 0))%Q.
Proof.
  intros Hj; unfold grow_counts, of_index. destruct (0 <=? nth l row (-1)); cbn [andb]; [|ring].
  destruct (ind_angle (set_of_angles c) a) as [k|] eqn:E; [|ring].
  destruct (Nat.eqb_spec k j) as [->|N].
  - rewrite nth_upd, Nat.eqb_refl. destruct (Nat.ltb_spec j (length ct)); [|lia]. cbn [andb]. reflexivity.
  - rewrite nth_upd. destruct (Nat.eqb_spec k j); [congruence|]. try (destruct (Nat.eqb_spec j k); [congruence|]); cbn [andb]. ring.
Qed.
Lemma row_kept x : -1 <= x -> (0 <=? x) = kept x.
Proof. intros H; unfold kept. destruct (Z.leb_spec 0 x), (Z.eqb_spec x (-1)); cbn; lia. Qed.

Lemma counts_partial pb e row j h : (forall x, In x row -> -1 <= x) -> (j < length (set_of_angles (p_cons pb)))%nat ->
  forall n, (n <= length row)%nat -> (n <= length h)%nat -> (n <= e)%nat ->
  (nth j (counts_of pb e row (seq 0 n) (firstn n h) (counts0 pb)) 0 ==
   inject_Z (Z.of_nat (countb (of_index (p_cons pb) j) (selected (firstn n h) (firstn n row)))))%Q.
Proof.
  intros Hr Hj; induction n as [|n IH]; intros L1 L2 Le.
  - cbn [seq firstn counts_of]. unfold counts0. rewrite nth_repeat. reflexivity.
  - rewrite seq_S, (firstn_snoc 0 n h), (firstn_snoc (-1) n row) by lia.
    rewrite counts_snoc by (rewrite seq_length, firstn_length; lia). cbn [plus].
    rewrite grow_counts_nth by (rewrite counts_length; unfold counts0; rewrite repeat_length; exact Hj).
    rewrite IH by lia. rewrite selected_snoc by (rewrite !firstn_length; lia). rewrite countb_app, Nat2Z.inj_add, inject_Z_plus.
    rewrite row_kept by (apply Hr, nth_In; lia).
    destruct (Nat.eqb_spec n e); [lia|]. cbn [andb].
    destruct (kept (nth n row (-1))); cbn [andb]; [rewrite countb_cons; destruct (of_index (p_cons pb) j (nth n h 0)); cbn|cbn]; ring.
Qed.

Lemma countb_rev {A} (f : A -> bool) l : countb f (rev l) = countb f l.
Proof. induction l as [|a l IH]; auto; cbn [rev]. rewrite countb_app, IH, !countb_cons. cbn. lia. Qed.

(** The counts recorded for a panel at the end of the search of a symmetric laminate are half
    the numbers of plies of its stack, for every angle. *)
Theorem C31_ply_counts_partial : forall pb cos_sin n_max ns t,
  sym (p_cons pb) = true -> scores_bounded pb -> well_posed pb cos_sin n_max ns -> middle_column pb ns ->
  (1 <= n_max)%nat -> beam pb (ply_order true n_max) = Ok t ->
  forall k i, (k < length (t_ss t))%nat -> (i < length (p_pdl pb))%nat ->
    exists s, final_stack true (nth i ns 0%nat) (nth i (nth k (t_ss t) []) ([], [])) = Ok s /\
      forall j, (j < length (set_of_angles (p_cons pb)))%nat ->
        (2 * nth j (snd (nth i (nth k (t_num t) []) (lampam_zero, []))) 0 ==
         inject_Z (Z.of_nat (countb (of_index (p_cons pb) j) s)))%Q.
Proof.
  intros pb cs n_max ns t Hs Hb (W1 & W2 & W3 & W4) Mid Hmax X k i Hk Hi.
  assert (Np : ply_order true n_max <> []).
  { unfold ply_order; intros N. apply (f_equal (@length nat)) in N; rewrite seq_length in N; cbn [length] in N.
    pose proof (n_half_spec n_max); lia. }
  destruct (beam_ok pb _ t (eq_sym W2) (fun l x => proj1 (Hb l x)) (fun l x => proj2 (Hb l x)) X Np) as [hs [[I1 [I2 _]] [R _]]].
  assert (Hk' : (k < length hs)%nat) by (rewrite I1, map_length in Hk; exact Hk).
  set (h := nth k hs []).
  assert (Hh : In h hs) by (apply nth_In; exact Hk').
  pose proof (reach_length _ _ _ (R h Hh)) as Lh.
  destruct (W4 i Hi) as (V1 & V2 & V3 & V4 & V5). specialize (Mid i Hi).
  set (row := nth i (p_pdl pb) []) in *. set (n := nth i ns 0%nat) in *. set (m := nth i (p_mat pb) []) in *.
  assert (Ein : nth i (List.combine (p_pdl pb) (p_mat pb)) ([], []) = (row, m)).
  { rewrite combine_nth by auto; reflexivity. }
  assert (Lc : length (List.combine (p_pdl pb) (p_mat pb)) = length (p_pdl pb)) by (rewrite combine_length; lia).
  assert (E1 : nth k (t_ss t) [] = ss_of pb (ply_order true n_max) h).
  { rewrite I1. rewrite (nth_indep _ [] (ss_of pb (ply_order true n_max) [])) by (rewrite map_length; exact Hk'). apply map_nth. }
  assert (E2 : nth k (t_num t) [] = num_of pb (last (ply_order true n_max) 0%nat) (ply_order true n_max) h).
  { rewrite I2. rewrite (nth_indep _ [] (num_of pb (last (ply_order true n_max) 0%nat) (ply_order true n_max) [])) by (rewrite map_length; exact Hk'). apply map_nth. }
  destruct (C22_sym_accumulated_lampam_partial cs n_max n row h V1 V2 ltac:(rewrite Lh; symmetry; exact V2) V3 V4) as [M [s [EM [F1 [F2 [F3 [F4 F5]]]]]]].
  rewrite V5 in EM; injection EM as EM; fold m in EM; subst M.
  assert (Po : ply_order true n_max = seq 0 (length row)).
  { unfold ply_order in V2 |- *; rewrite seq_length in V2; rewrite V2; reflexivity. }
  assert (Ebot : nd_bot (search true row m node0 (ply_order true n_max) h) = selected h row /\ nd_top (search true row m node0 (ply_order true n_max) h) = []).
  { rewrite Po. destruct (search_sym row _ m h node0 V5) as [S1 [S2 _]]; auto. lia. }
  destruct Ebot as [Eb Et].
  assert (E3 : nth i (ss_of pb (ply_order true n_max) h) ([], []) = (selected h row, [])).
  { unfold ss_of.
    match goal with |- context [map ?f (List.combine (p_pdl pb) (p_mat pb))] => rewrite (nth_indep _ ([], []) (f ([], []))) by (rewrite map_length, Lc; exact Hi); rewrite (map_nth f) end.
    cbv beta; rewrite Ein. unfold panel_node; cbn [fst snd]. rewrite Hs, Eb, Et; reflexivity. }
  exists s. rewrite E1, E3, E2. split.
  { unfold final_stack; cbn [fst snd]. unfold full_stack in F1 |- *; cbn [nd_bot nd_top]. rewrite Eb in F1. exact F1. }
  intros j Hj. unfold num_of.
  match goal with |- context [map ?f (List.combine (p_pdl pb) (p_mat pb))] => rewrite (nth_indep _ (lampam_zero, []) (f ([], []))) by (rewrite map_length, Lc; exact Hi); rewrite (map_nth f) end.
  cbv beta; rewrite Ein. cbn [fst snd].
  assert (Lr : (0 < length row)%nat) by (rewrite V2; unfold ply_order in *; rewrite seq_length; pose proof (n_half_spec n_max); lia).
  assert (Lhr : length h = length row) by (rewrite Lh; symmetry; exact V2).
  rewrite Po. destruct (length row) as [|w] eqn:Lw; [lia|].
  rewrite seq_S, last_last. cbn [plus].
  assert (Eh : h = firstn w h ++ [nth w h 0]) by (rewrite <- firstn_snoc by lia; symmetry; apply firstn_all2; lia).
  assert (Er : row = firstn w row ++ [nth w row (-1)]) by (rewrite <- firstn_snoc by lia; symmetry; apply firstn_all2; lia).
  assert (Esel : selected h row = selected (firstn w h) (firstn w row) ++ (if kept (nth w row (-1)) then [nth w h 0] else [])).
  { rewrite <- selected_snoc by (rewrite !firstn_length; lia). f_equal; auto. }
  assert (Ec : (nth j (counts_of pb w row (seq 0 w ++ [w]) h (counts0 pb)) 0 ==
     inject_Z (Z.of_nat (countb (of_index (p_cons pb) j) (selected (firstn w h) (firstn w row)))) +
     (if (kept (nth w row (-1)) && of_index (p_cons pb) j (nth w h 0))%Z%bool then if p_middle pb then 1 # 2 else 1 else 0))%Q).
  { rewrite Eh at 1. rewrite counts_snoc by (rewrite seq_length, firstn_length; lia).
    rewrite grow_counts_nth by (rewrite counts_length; unfold counts0; rewrite repeat_length; exact Hj).
    rewrite (counts_partial pb w row j h V3 Hj w) by lia. rewrite row_kept by (apply V3, nth_In; lia).
    rewrite Nat.eqb_refl; cbn [andb]. reflexivity. }
  rewrite Ec; clear Ec.
  assert (Ls : length (selected h row) = n_half n).
  { rewrite <- F4. rewrite firstn_length. unfold ply_order; rewrite seq_length. pose proof (n_half_spec n); lia. }
  assert (Last : last row (-1) = nth w row (-1)) by (rewrite Er at 1; apply last_last).
  rewrite Last in Mid.
  set (f := of_index (p_cons pb) j) in *. set (A := selected (firstn w h) (firstn w row)) in *.
  unfold full_stack in F1. rewrite Eb in F1. unfold middle_ply_index in F1; cbn [andb] in F1.
  destruct (Nat.odd n) eqn:Od.
  - assert (Km : p_middle pb = true /\ kept (nth w row (-1)) = true) by (destruct (p_middle pb); [auto|discriminate]).
    destruct Km as [Km Kk]. rewrite Km, Kk in *. cbn [andb]. rewrite Esel in F1.
    assert (Ct : countb f s = (2 * countb f A + (if f (nth w h 0%Z) then 1 else 0))%nat).
    { destruct (_ =? _)%nat in F1; [|discriminate]. injection F1 as <-.
      assert (Ei : ((n + 1) / 2 = length (A ++ [nth w h 0%Z]))%nat).
      { rewrite <- Esel, Ls. pose proof (n_half_spec n) as Hn. apply Nat.odd_spec in Od; destruct Od as [z Oz].
        symmetry; apply Nat.div_unique with 0%nat; lia. }
      change (fst (Nat.divmod (n + 1) 1 0 1)) with ((n + 1) / 2)%nat; rewrite Ei, rev_app_distr; cbn [rev app].
      assert (Dl : forall (B C : list Z) x, del (length B) (B ++ x :: C) = B ++ C).
      { clear; induction B as [|b B IH]; intros C x; cbn; auto. f_equal; apply IH. }
      rewrite Dl, !countb_app, countb_rev, countb_cons. cbn. lia. }
    rewrite Ct. rewrite Nat2Z.inj_add, Nat2Z.inj_mul, inject_Z_plus, inject_Z_mult.
    destruct (f (nth w h 0)); cbn; field.
  - assert (s = selected h row ++ rev (selected h row)) as ->.
    { destruct (_ =? _)%nat in F1; [|discriminate]. injection F1 as <-; reflexivity. }
    rewrite countb_app, countb_rev, Esel, countb_app, !Nat2Z.inj_add, !inject_Z_plus.
    assert ((kept (nth w row (-1)) && p_middle pb)%bool = false) as Nm.
    { destruct (p_middle pb); [rewrite Mid; reflexivity|apply andb_false_r]. }
    destruct (kept (nth w row (-1))); cbn [andb] in Nm |- *; [rewrite Nm, countb_cons; destruct (f (nth w h 0)); cbn|cbn]; ring.
Qed.

(* ------------------------------------------------------------------ *)
(** ** The guide panel *)

(** what the pruning lets pass is admissible *)
Lemma pruning_sound c n has_middle bot top child l a :
  sym c = true -> (length bot < n)%nat -> child <> [] -> Forall angle_ok bot -> Forall angle_ok child ->
  (contig c = true -> (2 <= n_contig c <= 6)%nat /\ contig_stack (n_contig c) bot) ->
  (dam_tol c = true -> forall x b, bot = x :: b -> pm45 x) ->
  (contig c = true -> S (length bot) = n -> (n_contig c <= length bot \/ 2 * length bot <= n_contig c)%nat) ->
  n <> 2%nat ->
  pruning c n (length bot) has_middle bot top child = Ok (Some l) -> In a l ->
  admissible c n has_middle bot a /\ In a (allowed n has_middle bot child).
Proof.
  intros Hs Hlen Hne Hb Hch Hn Hd HL N2 P Ha.
  assert (Fin : (dam_tol c = true -> dam_tol_rule c = 3%nat -> length bot = 1%nat ->
     (diso c = true -> diso_ok (delta_angle c) (-45) 45) /\ (contig c = true -> n = 2%nat -> (4 <= n_contig c)%nat)) ->
     admissible c n has_middle bot a /\ In a (allowed n has_middle bot child)).
  { intros H3. destruct (C30_symmetric_partial c n has_middle bot top child Hs Hlen Hne Hb Hch Hn Hd HL H3) as [r [E [p [Hp R]]]].
    rewrite E in P; injection P as ->. destruct R as [[_ R]|[_ R]]; [discriminate|]. injection R as ->.
    apply filter_In in Ha; destruct Ha as [H1 H2]; split; [apply Hp; auto|exact H1]. }
  destruct (is_diso (-45) 45 (delta_angle c)) eqn:D.
  { apply Fin; intros _ _ _; split; [intros _; apply is_diso_spec; auto; unfold angle_ok; lia|congruence]. }
  destruct (dam_tol c) eqn:Ed; [|apply Fin; discriminate].
  destruct (Nat.eq_dec (dam_tol_rule c) 3) as [R3|R3]; [|apply Fin; congruence].
  destruct (diso c) eqn:Edi; [|apply Fin; intros _ _ _; split; [discriminate|congruence]].
  destruct (Nat.eq_dec (length bot) 1) as [L1|L1]; [|apply Fin; congruence].
  destruct bot as [|x [|? ?]]; try discriminate L1.
  unfold pruning in P; rewrite Ed, Hs, R3 in P; cbn [length Nat.eqb orb andb negb] in P.
  rewrite (filterR_ok _ (fun a => (is45 a && (a =? - x))%bool)) in P.
  2:{ intros y Hy; unfold second_ply; rewrite R3, Edi, D; cbn [Nat.eqb andb negb]. destruct (is45 y); [|reflexivity]; cbn [negb andb].
      unfold getR; rewrite py_get_0; reflexivity. }
  cbn [bind] in P.
  match type of P with Ok (none_if_empty (filter ?f ?x)) = _ => assert (In a (filter f x)) as Ha' end.
  { destruct (filter _ _) in P |- *; [discriminate|]. cbn in P; injection P as <-. exact Ha. }
  apply filter_In in Ha'; destruct Ha' as [H1 H2]. apply andb_true_iff in H2; destruct H2 as [H2 H4].
  apply is45_spec in H2; apply Z.eqb_eq in H4.
  assert (In a (allowed n has_middle [x] child)) as H1'.
  { unfold allowed; cbn [length]. destruct n as [|[|[|n]]]; exact H1. }
  split; [|exact H1']. unfold admissible. rewrite R3.
  split; [discriminate|]. split; [discriminate|]. split; [intros; exact H2|]. split; [intros _ G; exfalso; apply G; auto|].
  intros Hct; destruct (Hn Hct) as [Hn' _]; unfold with_angle; cbn [length].
  destruct (Nat.eqb_spec 2 n); [congruence|]. apply contig_short; cbn; lia.
Qed.

Lemma guide_sym pb ls h : sym (p_cons pb) = true -> length (p_pdl pb) = length (p_mat pb) ->
  (p_thick pb < length (p_pdl pb))%nat ->
  (forall l, In l ls -> 0 <= nth l (nth (p_thick pb) (p_pdl pb) []) (-1)) ->
  length h = length ls -> guide pb ls h = (h, []).
Proof.
  intros Hs HL Ht Hk Lh. unfold guide, ss_of.
  assert (Lc : length (List.combine (p_pdl pb) (p_mat pb)) = length (p_pdl pb)) by (rewrite combine_length; lia).
  match goal with |- context [map ?f (List.combine (p_pdl pb) (p_mat pb))] => rewrite (nth_indep _ ([], []) (f ([], []))) by (rewrite map_length, Lc; exact Ht); rewrite (map_nth f) end.
  cbv beta; rewrite combine_nth by exact HL. unfold panel_node; cbn [fst snd]. rewrite Hs.
  set (row := nth (p_thick pb) (p_pdl pb) []) in *. set (m := nth (p_thick pb) (p_mat pb) []).
  assert (G : forall ls h nd, length h = length ls -> (forall l, In l ls -> 0 <= nth l row (-1)) ->
     nd_bot (search true row m nd ls h) = nd_bot nd ++ h /\ nd_top (search true row m nd ls h) = nd_top nd).
  { clear. induction ls as [|l ls IH]; intros [|a h] nd L K; cbn [search]; try discriminate L.
    - rewrite app_nil_r; auto.
    - destruct (IH h (branch true row m nd l a)) as [G1 G2]; [cbn in L; lia|intros; apply K; now right|].
      rewrite G1, G2. unfold branch; cbn [nd_bot nd_top orb negb andb].
      pose proof (K l (or_introl eq_refl)) as K'. destruct (Z.leb_spec 0 (nth l row (-1))); [|lia]; cbn [andb].
      rewrite <- app_assoc; auto. }
  destruct (G ls h node0 Lh Hk) as [-> ->]. reflexivity.
Qed.

(** the guidelines along the guide sequence *)
Definition all_admissible (c : cons) (n : nat) (has_middle : bool) (h : list Z) : Prop :=
  forall k, (k < length h)%nat -> admissible c n has_middle (firstn k h) (nth k h 0) /\
    (S k = n -> has_middle = true -> nth k h 0 = 0 \/ nth k h 0 = 90).

Lemma firstn_app_l {A} k (l m : list A) : (k <= length l)%nat -> firstn k (l ++ m) = firstn k l.
Proof. intros H; rewrite firstn_app; replace (k - length l)%nat with 0%nat by lia; cbn; apply app_nil_r. Qed.

Lemma reach_admissible pb n_max h :
  let c := p_cons pb in
  sym c = true -> length (p_pdl pb) = length (p_mat pb) -> (p_thick pb < length (p_pdl pb))%nat ->
  (forall l, (l < p_n pb)%nat -> 0 <= nth l (nth (p_thick pb) (p_pdl pb) []) (-1)) ->
  set_of_angles c <> [] -> Forall angle_ok (set_of_angles c) ->
  p_n pb <> 2%nat -> (contig c = true -> (2 <= n_contig c <= 6)%nat /\ (n_contig c < p_n pb)%nat) ->
  (n_max <= p_n pb)%nat ->
  reach pb (seq 0 n_max) h -> Forall angle_ok h /\ all_admissible c (p_n pb) (p_middle pb) h.
Proof.
  intros c Hs HL Ht Hk Hne Hset N2 Hn. revert h; induction n_max as [|k IH]; intros h Hmax R.
  - apply reach_length in R as L; cbn in L; destruct h; [|discriminate]. split; [constructor|intros k Hk'; cbn in Hk'; lia].
  - rewrite seq_S in R. inversion R as [E|ls h0 l a angs R0 P Ha Hi E1 E2]; subst.
    { destruct (seq 0 k); discriminate. }
    apply app_inj_tail in E1; destruct E1 as [-> ->].
    destruct (IH h0 ltac:(lia) R0) as [Ok0 A0].
    pose proof (reach_length _ _ _ R0) as L0; rewrite seq_length in L0.
    rewrite (guide_sym pb (seq 0 k) h0) in P; auto.
    2:{ intros l Hl; apply in_seq in Hl; apply Hk; lia. }
    2:{ rewrite seq_length; exact L0. }
    cbn [fst snd] in P. fold c in P. cbn [plus] in P. rewrite <- L0 in P.
    assert (Hct : contig c = true -> (2 <= n_contig c <= 6)%nat /\ contig_stack (n_contig c) h0).
    { intros Hct; destruct (Hn Hct) as [Hn1 Hn2]; split; [exact Hn1|].
      destruct h0 as [|y h1 _] using rev_ind; [apply contig_short; cbn; lia|].
      rewrite app_length in L0; cbn in L0.
      destruct (A0 (length h1) ltac:(rewrite app_length; cbn; lia)) as [(_ & _ & _ & _ & G) _].
      specialize (G Hct). rewrite firstn_app_l, firstn_all in G by lia.
      rewrite app_nth2 in G by lia. replace (length h1 - length h1)%nat with 0%nat in G by lia. cbn [nth] in G.
      unfold with_angle in G. destruct (Nat.eqb_spec (S (length h1)) (p_n pb)); [lia|exact G]. }
    assert (Hdm : dam_tol c = true -> forall x b, h0 = x :: b -> pm45 x).
    { intros Hd x b ->. destruct (A0 0%nat ltac:(cbn; lia)) as [(G & _) _]. exact (G Hd eq_refl). }
    destruct (pruning_sound c (p_n pb) (p_middle pb) h0 [] (set_of_angles c) angs a) as [Ad Al]; auto; [lia| |].
    { intros Hct' Hl; destruct (Hn Hct'); left; lia. }
    split.
    + apply Forall_app; split; [exact Ok0|]. constructor; [|constructor].
      unfold allowed in Al. destruct (_ && p_middle pb)%bool; [|rewrite Forall_forall in Hset; auto].
      cbn in Al; unfold angle_ok; destruct Al as [<-|[<-|[]]]; lia.
    + intros j Hj. rewrite app_length in Hj; cbn in Hj.
      destruct (Nat.eq_dec j (length h0)) as [->|N].
      * rewrite firstn_app_l, firstn_all by lia. rewrite app_nth2 by lia.
        replace (length h0 - length h0)%nat with 0%nat by lia; cbn [nth]. split; [exact Ad|].
        intros Hl Hm. unfold allowed in Al. rewrite Hm in Al. destruct (Nat.eqb_spec (S (length h0)) (p_n pb)); [|lia].
        cbn in Al. destruct Al as [<-|[<-|[]]]; auto.
      * rewrite firstn_app_l by lia. rewrite app_nth1 by lia. apply A0; lia.
Qed.

Lemma palindrome_half (s : list Z) k : s = rev s -> (length s <= 2 * k)%nat -> (k <= length s)%nat ->
  s = firstn k s ++ rev (firstn (length s - k) (firstn k s)).
Proof.
  intros P L K. rewrite <- (firstn_skipn k s) at 1. f_equal.
  rewrite P at 1. rewrite skipn_rev, firstn_firstn. do 2 f_equal. lia.
Qed.
Lemma rev_nth_pal (s : list Z) i : s = rev s -> (i < length s)%nat -> nth i s 0 = nth (length s - 1 - i) s 0.
Proof. intros P H. rewrite P at 1. rewrite rev_nth by exact H. f_equal; lia. Qed.

Lemma diso_ok_sym delta a b : diso_ok delta a b -> diso_ok delta b a.
Proof. intros [k H]; exists (- k); lia. Qed.
Lemma diso_ok_refl delta a : 0 <= delta -> diso_ok delta a a.
Proof. intros H; exists 0; lia. Qed.

(** the guidelines of a whole laminate: damage tolerance rules 2 and 3 exempt the outermost
    plies from the disorientation rule *)
Definition guidelines (c : cons) (s : list Z) : Prop :=
  (dam_tol c = true -> dam_tol_rule c = 1%nat -> damtol1 s) /\
  (dam_tol c = true -> dam_tol_rule c = 2%nat -> damtol2 s) /\
  (dam_tol c = true -> dam_tol_rule c = 3%nat -> damtol3 s) /\
  (diso c = true -> ~ (dam_tol c = true /\ (dam_tol_rule c = 2 \/ dam_tol_rule c = 3)%nat) -> diso_stack (delta_angle c) s) /\
  (diso c = true -> forall m, inner_of s m -> diso_stack (delta_angle c) m) /\
  (contig c = true -> contig_stack (n_contig c) s).

Lemma stack_guidelines c n has_middle h s : (3 <= n)%nat -> length h = n -> 0 <= delta_angle c ->
  all_admissible c n has_middle h ->
  s = rev s -> n_half (length s) = n -> firstn n s = h -> has_middle = Nat.odd (length s) -> guidelines c s.
Proof.
  intros Hn Lh Hdelta A P Hh Hf Hm.
  assert (B : (length s <= 2 * n)%nat /\ (n <= length s)%nat) by (rewrite <- Hh; pose proof (n_half_spec (length s)); lia).
  assert (E : s = h ++ rev (firstn (length s - n) h)).
  { rewrite <- Hf at 1 2. apply palindrome_half; [exact P| |]; lia. }
  assert (Nh : forall i, (i < n)%nat -> nth i s 0 = nth i h 0).
  { intros i Hi; rewrite E, app_nth1 by lia; reflexivity. }
  (* the pairs of plies *)
  assert (Pairs : diso c = true -> forall i, (S i < length s)%nat ->
     (~ (dam_tol c = true /\ (dam_tol_rule c = 2 \/ dam_tol_rule c = 3)%nat) \/ (1 <= i /\ S i < length s - 1)%nat) ->
     diso_ok (delta_angle c) (nth i s 0) (nth (S i) s 0)).
  { intros Hd.
    assert (Low : forall i, (S i < n)%nat -> (~ (dam_tol c = true /\ (dam_tol_rule c = 2 \/ dam_tol_rule c = 3)%nat) \/ (1 <= i)%nat) ->
      diso_ok (delta_angle c) (nth i s 0) (nth (S i) s 0)).
    { intros i Hi Hx. rewrite !Nh by lia. destruct (A (S i) ltac:(lia)) as [(_ & _ & _ & G & _) _].
      apply (G Hd) with (b0 := firstn i h).
      - intros (G1 & G2 & G3). rewrite firstn_length in G3. destruct Hx as [Hx|Hx]; [tauto|lia].
      - apply firstn_snoc; lia. }
    intros i Hi Hx. destruct (Nat.lt_ge_cases (S i) n) as [C1|C1]; [apply Low; [exact C1|destruct Hx; [now left|right; lia]]|].
    destruct (Nat.lt_ge_cases (length s - 1 - i) n) as [C2|C2].
    - apply diso_ok_sym. rewrite (rev_nth_pal s (S i)), (rev_nth_pal s i) by (auto; lia).
      replace (length s - 1 - i)%nat with (S (length s - 1 - S i)) by lia.
      apply Low; [lia|]. destruct Hx; [now left|right; lia].
    - assert (S i = n /\ length s = 2 * n)%nat as [C3 C4] by lia.
      rewrite (rev_nth_pal s (S i)) by (auto; lia). replace (length s - 1 - S i)%nat with i by lia.
      apply diso_ok_refl; exact Hdelta. }
  destruct h as [|x [|y h]]; cbn [length] in Lh; try lia.
  assert (Es : exists m, s = x :: y :: m) by (rewrite E; cbn [app]; eauto).
  destruct Es as [m Es].
  assert (Er : s = rev m ++ [y; x]) by (rewrite P, Es; cbn [rev]; rewrite <- app_assoc; reflexivity).
  destruct (A 0%nat ltac:(cbn; lia)) as [(G1 & _) _]. cbn [firstn nth] in G1.
  destruct (A 1%nat ltac:(cbn; lia)) as [(_ & G2 & G3 & _) _]. cbn [firstn nth] in G2, G3.
  split; [|split; [|split; [|split; [|split]]]].
  - intros Hd _. specialize (G1 Hd eq_refl). split.
    + exists x, (y :: m); split; [exact Es|exact G1].
    + exists (rev m ++ [y]), x; split; [rewrite <- app_assoc; exact Er|exact G1].
  - intros Hd R2. specialize (G1 Hd eq_refl). specialize (G2 Hd R2 x eq_refl). subst y. split.
    + exists x, m; split; [exact Es|exact G1].
    + exists (rev m), x; split; [exact Er|exact G1].
  - intros Hd R3. specialize (G1 Hd eq_refl). specialize (G3 Hd R3 x eq_refl). split.
    + exists x, y, m; split; [exact Es|split; assumption].
    + exists (rev m), y, x; split; [exact Er|split; assumption].
  - intros Hd Hx a b Hab. apply adjacent_nth in Hab; destruct Hab as [i [Hi [<- <-]]]. apply Pairs; auto.
  - intros Hd m' [[a0 [b0 E']]|[Hl _]] a b Hab; [|lia].
    apply adjacent_nth in Hab; destruct Hab as [i [Hi [<- <-]]].
    assert (Ls : length s = S (S (length m'))) by (rewrite E'; cbn [length]; rewrite app_length; cbn; lia).
    specialize (Pairs Hd (S i) ltac:(lia) ltac:(right; lia)).
    rewrite E' in Pairs; cbn [nth] in Pairs. rewrite !app_nth1 in Pairs by lia. exact Pairs.
  - intros Hct. destruct (A (n - 1)%nat ltac:(cbn; lia)) as [(_ & _ & _ & _ & G) _]. specialize (G Hct).
    set (h' := x :: y :: h) in *. assert (Lh' : length h' = n) by (unfold h'; cbn; lia).
    unfold with_angle in G. rewrite firstn_length, Lh' in G. replace (Nat.min (n - 1) n) with (n - 1)%nat in G by lia.
    destruct (Nat.eqb_spec (S (n - 1)) n); [|lia].
    assert (Eh : h' = firstn (n - 1) h' ++ [nth (n - 1) h' 0]).
    { rewrite <- firstn_snoc by lia. replace (S (n - 1)) with (length h') by lia. rewrite firstn_all; reflexivity. }
    replace s with (firstn (n - 1) h' ++ (if has_middle then [nth (n - 1) h' 0] else [nth (n - 1) h' 0; nth (n - 1) h' 0]) ++ rev (firstn (n - 1) h')); [exact G|].
    rewrite E. destruct (Nat.odd (length s)) eqn:O; rewrite Hm.
    + destruct (n_half_odd _ O) as [O1 _]. rewrite Hh in O1. replace (length s - n)%nat with (n - 1)%nat by lia.
      rewrite app_assoc, <- Eh; reflexivity.
    + pose proof (n_half_even _ O) as O1. rewrite Hh in O1. replace (length s - n)%nat with (length h') by lia.
      rewrite firstn_all.
      replace (h' ++ rev h') with ((firstn (n - 1) h' ++ [nth (n - 1) h' 0]) ++ rev (firstn (n - 1) h' ++ [nth (n - 1) h' 0]))
        by (rewrite <- Eh; reflexivity).
      rewrite rev_app_distr; cbn [rev app]. rewrite <- app_assoc; reflexivity.
Qed.

(** Every surviving node gives the guide panel a stack that respects the guidelines enforced
    by the pruning (laminates with more than n_contig plies, and at least three, below the
    mid-plane) *)
Theorem C31_guide_respects_guidelines_partial : forall pb cos_sin n_max ns t,
  let c := p_cons pb in let g := p_thick pb in
  sym c = true -> scores_bounded pb -> well_posed pb cos_sin n_max ns -> (1 <= n_max)%nat -> (1 <= p_global_final pb)%nat ->
  (* the guide panel: no ply dropped; a middle ply exactly if it has one *)
  (g < length (p_pdl pb))%nat -> (forall x, In x (nth g (p_pdl pb) []) -> 0 <= x) -> nth g ns 0%nat = n_max -> p_middle pb = Nat.odd n_max ->
  (* the allowed angles and guidelines *)
  set_of_angles c <> [] -> Forall angle_ok (set_of_angles c) -> 0 <= delta_angle c ->
  (3 <= p_n pb)%nat -> (contig c = true -> (2 <= n_contig c <= 6)%nat /\ (n_contig c < p_n pb)%nat) ->
  beam pb (ply_order true n_max) = Ok t ->
  forall k, (k < length (t_ss t))%nat ->
    exists s, final_stack true n_max (nth g (nth k (t_ss t) []) ([], [])) = Ok s /\ length s = n_max /\ guidelines c s /\
      (Nat.odd n_max = true -> nth (Nat.div n_max 2) s 0 = 0 \/ nth (Nat.div n_max 2) s 0 = 90).
Proof.
  intros pb cs n_max ns t c g Hs Hb W Hmax Hg Hgi Hkept Hns Hmid Hne Hset Hdelta H3 Hct X k Hk.
  destruct (C31_nodes_blended_partial pb cs n_max ns t Hs Hb W Hmax Hg X) as [hs [_ [L1 [_ Nodes]]]].
  rewrite L1 in Hk. destruct (Nodes k Hk) as [Lh Panels]. destruct (Panels g Hgi) as [_ [s [S1 [S2 [S3 [S4 _]]]]]].
  rewrite Hns in S1, S2, S4. exists s. split; [exact S1|]. split; [exact S2|].
  destruct W as (W1 & W2 & W3 & W4). destruct (W4 g Hgi) as (V1 & V2 & V3 & V4 & _).
  assert (Np : ply_order true n_max <> []).
  { intros N. rewrite N in W3; cbn in W3. lia. }
  destruct (beam_ok pb _ t (eq_sym W2) (fun l x => proj1 (Hb l x)) (fun l x => proj2 (Hb l x)) X Np) as [hs' [[I1 _] [R _]]].
  assert (Lhs : length hs' = length hs) by (rewrite <- L1, I1, map_length; reflexivity).
  set (h := nth k hs' []).
  assert (Rh : reach pb (ply_order true n_max) h) by (apply R, nth_In; lia).
  assert (Ls : length (ply_order true n_max) = p_n pb) by (symmetry; exact W3).
  unfold ply_order in Rh, Ls; rewrite seq_length in Ls. rewrite Ls in Rh.
  assert (Hrow : forall l, (l < p_n pb)%nat -> 0 <= nth l (nth g (p_pdl pb) []) (-1)).
  { intros l Hl. apply Hkept, nth_In. rewrite V2, <- W3; exact Hl. }
  destruct (reach_admissible pb (p_n pb) h Hs (eq_sym W2) Hgi Hrow Hne Hset ltac:(lia) Hct (le_n _) Rh) as [_ Ad].
  pose proof (reach_length _ _ _ Rh) as Lh'; rewrite seq_length in Lh'.
  assert (Eg : nth g (nth k (t_ss t) []) ([], []) = (h, [])).
  { rewrite I1. rewrite (nth_indep _ [] (ss_of pb (ply_order true n_max) [])) by (rewrite map_length; lia). rewrite map_nth.
    apply (guide_sym pb (ply_order true n_max) h Hs (eq_sym W2) Hgi); [|rewrite Lh', W3; reflexivity].
    intros l Hl; unfold ply_order in Hl; apply in_seq in Hl; apply Hrow; lia. }
  assert (Ef : firstn (p_n pb) s = h).
  { rewrite <- W3 in S4. rewrite S4. destruct (Panels g Hgi) as [E0 _]. rewrite Eg in E0; congruence. }
  split.
  - apply (stack_guidelines c (p_n pb) (p_middle pb) h s); auto.
    + rewrite S2; exact Ls.
    + rewrite S2; exact Hmid.
  - intros O. destruct (n_half_odd _ O) as [O1 _]. rewrite Ls in O1.
    destruct (Ad (p_n pb - 1)%nat ltac:(lia)) as [_ G]. specialize (G ltac:(lia) ltac:(rewrite Hmid; exact O)).
    replace (Nat.div n_max 2) with (p_n pb - 1)%nat.
    + rewrite <- Ef in G. rewrite nth_firstn in G by lia. exact G.
    + rewrite O1. replace (2 * p_n pb - 1)%nat with (1 + (p_n pb - 1) * 2)%nat by lia.
      rewrite Nat.div_add by lia. reflexivity.
Qed.

(** Asymmetric laminates: every surviving node has one angle per level; a panel has, from
    the bottom, the angles of the even levels kept by its line of the layout in the order of
    the search, and then those of the odd levels in the reversed order; if it keeps [n]
    levels it gets a stack of [n] plies. *)
Definition kept_at (row : list Z) (par : bool) (levels : list nat) (h : list Z) : list Z :=
  map snd (filter (fun la => (0 <=? nth (fst la) row (-1)) && Bool.eqb (Nat.even (fst la)) par)%bool (List.combine levels h)).

Theorem C31_asymmetric_nodes : forall pb levels t,
  sym (p_cons pb) = false -> scores_bounded pb -> length (p_mat pb) = length (p_pdl pb) -> levels <> [] -> (1 <= p_global_final pb)%nat ->
  beam pb levels = Ok t ->
  exists hs : list (list Z),
    (1 <= length hs <= p_global_final pb)%nat /\ length (t_ss t) = length hs /\
    forall k, (k < length hs)%nat ->
      let h := nth k hs [] in
      length h = length levels /\
      forall i, (i < length (p_pdl pb))%nat ->
        let row := nth i (p_pdl pb) [] in
        let s := kept_at row true levels h ++ rev (kept_at row false levels h) in
        nth i (nth k (t_ss t) []) ([], []) = (kept_at row true levels h, rev (kept_at row false levels h)) /\
        length s = countb (fun l => 0 <=? nth l row (-1)) levels /\
        final_stack false (length s) (nth i (nth k (t_ss t) []) ([], [])) = Ok s.
Proof.
  intros pb levels t Hs Hb W2 Np Hg X.
  destruct (beam_ok pb _ t (eq_sym W2) (fun l x => proj1 (Hb l x)) (fun l x => proj2 (Hb l x)) X Np) as [hs [[I1 [I2 _]] [R [C1 C2]]]].
  exists hs. split.
  { split; [|exact C1]. specialize (C2 Hg). destruct hs; [congruence|cbn; lia]. }
  split; [rewrite I1, map_length; reflexivity|].
  intros k Hk h. assert (Hh : In h hs) by (apply nth_In; exact Hk).
  pose proof (reach_length _ _ _ (R h Hh)) as Lh. split; [exact Lh|]. intros i Hi row s.
  set (m := nth i (p_mat pb) []).
  assert (Lc : length (List.combine (p_pdl pb) (p_mat pb)) = length (p_pdl pb)) by (rewrite combine_length; lia).
  assert (G : forall ls h nd, length h = length ls ->
     nd_bot (search false row m nd ls h) = nd_bot nd ++ kept_at row true ls h /\
     nd_top (search false row m nd ls h) = rev (kept_at row false ls h) ++ nd_top nd /\
     (length (kept_at row true ls h) + length (kept_at row false ls h) = countb (fun l => (0 <=? nth l row (-1))%Z) ls)%nat).
  { clear. unfold kept_at. induction ls as [|l ls IH]; intros [|a h] nd L; cbn [search]; try discriminate L.
    - cbn. rewrite app_nil_r; auto.
    - destruct (IH h (branch false row m nd l a)) as [G1 [G2 G3]]; [cbn in L; lia|].
      rewrite G1, G2. unfold branch; cbn [nd_bot nd_top orb List.combine filter fst countb].
      unfold countb in *; cbn [filter].
      destruct (0 <=? nth l row (-1)), (Nat.even l); cbn [andb negb Bool.eqb map snd rev length]; rewrite <- ?app_assoc;
        (split; [reflexivity|split; [reflexivity|cbn [length]; lia]]). }
  destruct (G levels h node0 Lh) as [G1 [G2 G3]]. cbn [node0 nd_bot nd_top app] in G1, G2. rewrite app_nil_r in G2.
  assert (E : nth i (nth k (t_ss t) []) ([], []) = (kept_at row true levels h, rev (kept_at row false levels h))).
  { rewrite I1. rewrite (nth_indep _ [] (ss_of pb levels [])) by (rewrite map_length; exact Hk). rewrite map_nth. fold h.
    unfold ss_of.
    match goal with |- context [map ?f (List.combine (p_pdl pb) (p_mat pb))] => rewrite (nth_indep _ ([], []) (f ([], []))) by (rewrite map_length, Lc; exact Hi); rewrite (map_nth f) end.
    cbv beta. rewrite combine_nth by auto. unfold panel_node; cbn [fst snd]. fold row m. rewrite Hs, G1, G2; reflexivity. }
  split; [exact E|]. split; [unfold s; rewrite app_length, rev_length; exact G3|].
  rewrite E. unfold final_stack, full_stack; cbn [fst snd nd_bot nd_top]. fold s. rewrite Nat.eqb_refl; reflexivity.
Qed.

(* ------------------------------------------------------------------ *)
(** non-vacuous: two panels of 8 and 6 plies *)
Definition ex_mat (row : list Z) (n : nat) : list (Z -> lampam) :=
  match lampam_matrix row (delta_lampams true (fun _ _ => 1%Q) n) with Ok m => m | Err _ => [] end.
Definition ex_beam : problem :=
  {| p_cons := cons_ex; p_n := 4; p_middle := false; p_thick := 0; p_pdl := [[0; 0; 0; 0]; [0; -1; 0; 0]];
     p_mat := [ex_mat [0; 0; 0; 0] 8; ex_mat [0; -1; 0; 0] 6]; p_score := fun _ _ => 0%Q;
     p_local := 2; p_local_final := 2; p_global := 3; p_global_final := 2 |}.
Example C31_example :
  well_posed ex_beam (fun _ _ => 1%Q) 8 [8; 6]%nat /\ scores_bounded ex_beam /\
  exists t, beam ex_beam (ply_order true 8) = Ok t /\
    t_ss t = [[([-45; 0; 0; -45], []); ([-45; 0; -45], [])]; [([-45; 0; 0; 45], []); ([-45; 0; 45], [])]].
Proof.
  split; [|split].
  - split; [reflexivity|]. split; [reflexivity|]. split; [reflexivity|]. intros i Hi; cbn [length ex_beam p_pdl] in Hi.
    destruct i as [|[|i]]; [| |lia]; cbv zeta; cbn [nth ex_beam p_pdl p_mat];
      (split; [lia|split; [reflexivity|split; [intros x Hx; cbn in Hx; lia|split; [reflexivity|unfold ex_mat; reflexivity]]]]).
  - intros l x; cbn; lra.
  - assert (V : match beam ex_beam (ply_order true 8) with
      | Ok t => t_ss t = [[([-45; 0; 0; -45], []); ([-45; 0; -45], [])]; [([-45; 0; 0; 45], []); ([-45; 0; 45], [])]]
      | Err _ => False end) by (vm_compute; reflexivity).
    destruct (beam ex_beam (ply_order true 8)) as [t|e]; [|contradiction]. exists t; auto.
Qed.

(** the ply counts, with a middle ply: panels of 7 and 6 plies *)
Definition ex_beam_mid : problem :=
  {| p_cons := cons_ex; p_n := 4; p_middle := true; p_thick := 0; p_pdl := [[0; 0; 0; 0]; [0; 0; 0; -1]];
     p_mat := [ex_mat [0; 0; 0; 0] 7; ex_mat [0; 0; 0; -1] 6]; p_score := fun _ _ => 0%Q;
     p_local := 2; p_local_final := 2; p_global := 3; p_global_final := 2 |}.
Example C31_counts_example :
  well_posed ex_beam_mid (fun _ _ => 1%Q) 7 [7; 6]%nat /\ scores_bounded ex_beam_mid /\ middle_column ex_beam_mid [7; 6]%nat /\
  exists t, beam ex_beam_mid (ply_order true 7) = Ok t /\ (1 <= length (t_ss t))%nat /\
    Forall2 (Forall2 Qeq) (map snd (nth 0 (t_num t) [])) [[1; 3 # 2; 1; 0]; [1; 1; 1; 0]]%Q.
Proof.
  split; [|split; [|split]].
  - split; [reflexivity|]. split; [reflexivity|]. split; [reflexivity|]. intros i Hi; cbn [length ex_beam_mid p_pdl] in Hi.
    destruct i as [|[|i]]; [| |lia]; cbv zeta; cbn [nth ex_beam_mid p_pdl p_mat];
      (split; [lia|split; [reflexivity|split; [intros x Hx; cbn in Hx; lia|split; [reflexivity|unfold ex_mat; reflexivity]]]]).
  - intros l x; cbn; lra.
  - intros i Hi; cbn [length ex_beam_mid p_pdl] in Hi. destruct i as [|[|i]]; [reflexivity|reflexivity|lia].
  - assert (V : match beam ex_beam_mid (ply_order true 7) with
      | Ok t => (1 <=? length (t_ss t))%nat = true /\ map (map Qred) (map snd (nth 0 (t_num t) [])) = [[1; 3 # 2; 1; 0]; [1; 1; 1; 0]]%Q
      | Err _ => False end) by (vm_compute; auto).
    destruct (beam ex_beam_mid (ply_order true 7)) as [t|e]; [|contradiction]. exists t. destruct V as [V1 V2].
    split; [reflexivity|]. split; [apply Nat.leb_le; exact V1|].
    rewrite <- V2. set (l := map snd (nth 0 (t_num t) [])). clearbody l. clear.
    induction l as [|r l IH]; cbn [map]; constructor; auto. clear.
    induction r as [|x r IH]; cbn [map]; constructor; auto. symmetry; apply Qred_correct.
Qed.
