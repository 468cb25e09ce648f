(* Properties_repairdiso.v - C35 and C53: the repair for disorientation and contiguity
   (RELAY/repair_diso_contig.py and the four repair_from_*.py). 666 marks an unknown ply;
   the plies of the queue are to fill the unknown plies. *)
From Verif Require Import Base Constraints Guidelines SpecGuidelines GuidelinesProofs ConstraintsProofs
  PdlTools PdlToolsProofs Divide DivideProofs Moments MomentsProofs Repair10 Repair10Proofs RepairDiso RepairDisoProofs Properties_guidelines.
Local Open Scope Z_scope.

(* ---------------- specification ---------------- *)
(** the damage tolerance rule concerns two outer plies on each side *)
Definition two_protected (c : cons) : Prop := dam_tol c = true /\ (dam_tol_rule c = 2%nat \/ dam_tol_rule c = 3%nat).
(** outer plies that have to be known on each side *)
Definition n_known_outer (c : cons) : nat :=
  if (dam_tol c && (Nat.eqb (dam_tol_rule c) 2 || Nat.eqb (dam_tol_rule c) 3))%bool then 2%nat else 1%nat.
(** the contiguity limit is one that the checker supports *)
Definition contig_supported (c : cons) : Prop :=
  contig c = true -> (2 <= n_contig c <= 6)%nat /\ n_contig_c c = Some (n_contig c).
Definition complete (s : list Z) : Prop := Forall angle_ok s.
(** the known plies of a laminate and the number of its unknown plies *)
Definition known_plies (s : list Z) : list Z := filter (fun x => negb (x =? 666)) s.
Definition unknown_count (s : list Z) : nat := length (filter (fun x => x =? 666) s).
Definition first_half (s : list Z) : list Z := firstn (length s / 2) s.
(** the disorientation rule as the code states it: with two protected plies the outermost
    ply of each side is not concerned *)
Definition diso_rule (c : cons) (s : list Z) : Prop :=
  diso c = true ->
  (~ two_protected c -> diso_stack (delta_angle c) s) /\
  (two_protected c -> forall m, inner_of s m -> diso_stack (delta_angle c) m).
Definition contig_rule (c : cons) (s : list Z) : Prop := contig c = true -> contig_stack (n_contig c) s.

Lemma two_protected_b c : two_protected c <-> two_outer c = true.
Proof.
  unfold two_protected, two_outer. rewrite andb_true_iff, orb_true_iff, !Nat.eqb_eq. reflexivity.
Qed.
Lemma n_outer_out_spec c : (two_protected c -> n_outer_out c = 2%nat) /\ (~ two_protected c -> n_outer_out c = 1%nat).
Proof. rewrite two_protected_b. unfold n_outer_out. destruct (two_outer c); split; intros; try reflexivity; congruence. Qed.
Lemma d_minus c : (n_outer_in c - 1 = n_outer_out c - 1)%nat.
Proof. unfold n_outer_in, n_outer_out. destruct (two_outer c); [reflexivity|]. destruct (dam_tol c); reflexivity. Qed.
Lemma good_diso c s : good_whole c (n_outer_out c - 1) s -> diso_rule c s.
Proof.
  intros G Di. specialize (G Di). destruct (n_outer_out_spec c) as [O2 O1]. split; intros H.
  - rewrite (O1 H) in G. apply diso_pairs. cbn in G. rewrite Nat.sub_0_r in G. exact G.
  - rewrite (O2 H) in G. cbn in G. intros m [(a & b & ->)|[_ ->]].
    + apply diso_pairs. apply (pairs_seg_inv (delta_angle c) [a] m [b] 0 (length m)); [|lia].
      cbn [app length]. cbn [length] in G. rewrite app_length in G. cbn [length] in G. eapply pairs_sub; [exact G|lia|lia].
    + intros x y (l1 & l2 & E). destruct l1; discriminate.
Qed.

(** a laminate is also good when its two outer plies differ and the rest is good *)
Lemma blocks_outer n (s : list Z) : (2 <= n)%nat -> blocks_ok n s 1 (length s - 1) -> (3 <= length s)%nat ->
  nth 0 s 0 <> nth 1 s 0 -> nth (length s - 1) s 0 <> nth (length s - 2) s 0 -> blocks_ok n s 0 (length s).
Proof.
  intros Hn B L H0 H1 i Hl Hi K. destruct (Nat.eq_dec i 0) as [->|Ni].
  - apply H0. symmetry. apply (K 1%nat); lia.
  - destruct (Nat.eq_dec (i + n) (length s - 1)) as [Ei|Ne]; [|apply (B i); [lia|lia|exact K]].
    apply H1. pose proof (K n ltac:(lia)) as K1. pose proof (K (n - 1)%nat ltac:(lia)) as K2.
    replace (i + n)%nat with (length s - 1)%nat in K1 by lia. replace (i + (n - 1))%nat with (length s - 2)%nat in K2 by lia. congruence.
Qed.

(* ---------------- C35: symmetric laminates ---------------- *)
(** the repair returns; plies are only permuted, the unknown plies being filled with the queue,
    in each half of the laminate; the laminate stays symmetric, the middle ply and the plies
    protected by damage tolerance stay; a repair reported as successful gives a laminate that
    satisfies both rules, as long as the group of the last permutation is not smaller than the
    contiguity limit less one and (two protected plies) the two outer plies differ *)
Theorem C35_symmetric_partial : forall c n_D1 ss q,
  sym c = true -> contig_supported c -> (diso c = true -> 0 <= delta_angle c) ->
  ss = rev ss -> (2 * n_known_outer c <= length ss)%nat ->
  (forall i, (i < n_known_outer c)%nat -> nth i ss 0 <> 666) ->
  length q = unknown_count (first_half ss) ->
  complete (known_plies (first_half ss)) -> complete q -> (Nat.odd (length ss) = true -> angle_ok (nth (length ss / 2) ss 0)) ->
  exists s inward outward, repair_diso_contig c n_D1 ss q = Ok (s, inward, outward, []) /\
    length s = length ss /\ s = rev s /\ complete s /\
    Permutation (first_half s) (known_plies (first_half ss) ++ q) /\
    (Nat.odd (length ss) = true -> nth (length ss / 2) s 0 = nth (length ss / 2) ss 0) /\
    (dam_tol c = true -> nth 0 s 0 = nth 0 ss 0 /\ (two_protected c -> nth 1 s 0 = nth 1 ss 0)) /\
    (inward = true \/ outward = true ->
      diso_rule c s /\
      ((n_contig c <= n_D1 + 1)%nat -> (n_contig c + n_known_outer c <= length ss / 2 + 1)%nat ->
       (two_protected c -> nth 0 ss 0 <> nth 1 ss 0) -> contig_rule c s)) /\
    (* the inward repair of a short laminate needs the two outer plies to satisfy the rule *)
    (inward = true -> diso c = true -> (length ss / 2 <= 2 * Nat.min n_D1 (length ss / 2 - n_known_outer c) + 1)%nat ->
      diso_ok (delta_angle c) (nth 0 s 0) (nth 1 s 0)).
Proof.
  intros c n_D1 ss q Sy R Hdel Pal Hn Ko Lq Fk Fq Fm. change (n_known_outer c) with (n_outer_out c) in *.
  pose proof (n_outer_out_cases c) as Hd0. set (d := n_outer_out c) in *. set (n := length ss) in *.
  assert (Dm : n = (2 * (n / 2) + n mod 2)%nat) by (apply Nat.div_mod; lia). pose proof (Nat.mod_upper_bound n 2 ltac:(lia)) as Mb.
  assert (Fmid : Forall angle_ok (middle ss)) by (unfold middle; fold n; destruct (Nat.odd n) eqn:Eo; auto).
  destruct (outside_sym_spec c n_D1 ss q R Hdel Hn) as (h & b & E & Hf & Lh & Ph & Hb & Hs).
  { apply Forall_forall. intros x Hx. apply (In_nth _ _ 0) in Hx. destruct Hx as [i [Hi <-]]. rewrite firstn_length in Hi. fold d n in Hi. rewrite nth_firstn by (fold d; lia). apply Ko. lia. }
  { exact Lq. }
  { repeat (apply Forall_app; split); assumption. }
  fold d n in Hf, Lh, Hb, Hs. unfold repair_diso_contig. rewrite Sy, E. cbn [bind].
  set (s := h ++ middle ss ++ rev h) in *.
  assert (Ls : length s = n) by (apply whole_length; exact Lh).
  assert (Ps : s = rev s) by (apply whole_pal, middle_rev).
  assert (Fh : Forall angle_ok h) by (apply (Permutation_Forall (Permutation_sym Ph)); apply Forall_app; split; assumption).
  assert (Fs : Forall angle_ok s) by (repeat (apply Forall_app; split); auto; apply Forall_rev, Fh).
  assert (Hh : forall h' : list Z, length h' = (n / 2)%nat -> first_half (h' ++ middle ss ++ rev h') = h').
  { intros h' L'. unfold first_half. rewrite (whole_length ss h' L'). fold n. rewrite <- L'. apply firstn_top. }
  assert (Hmid : forall h' : list Z, length h' = (n / 2)%nat -> Nat.odd n = true -> nth (n / 2) (h' ++ middle ss ++ rev h') 0 = nth (n / 2) ss 0).
  { intros h' L' Eo. rewrite app_nth2 by lia. rewrite L', Nat.sub_diag. unfold middle. fold n. rewrite Eo. reflexivity. }
  assert (Hout : forall h' m, (m <= d)%nat -> length h' = (n / 2)%nat -> firstn m h' = firstn m ss -> forall i, (i < m)%nat -> nth i (h' ++ middle ss ++ rev h') 0 = nth i ss 0).
  { intros h' m Hm L' Hf' i Hi. rewrite app_nth1 by lia. transitivity (nth i (firstn m h') 0); [rewrite nth_firstn by lia; reflexivity|]. rewrite Hf', nth_firstn by lia. reflexivity. }
  assert (Hdh : (d <= n / 2)%nat) by lia.
  destruct b.
  - exists s, true, true. split; [reflexivity|]. split; [exact Ls|]. split; [exact Ps|]. split; [exact Fs|]. split; [unfold s; rewrite Hh by exact Lh; exact Ph|].
    split; [apply Hmid, Lh|]. split.
    { intros _. pose proof (Hout h d (Nat.le_refl d) Lh Hf) as Ho. split; [apply Ho; lia|]. intros T. apply Ho. assert (d = 2)%nat by (apply n_outer_out_spec, T). lia. }
    destruct (Hb eq_refl) as (G1 & G2 & G3). split; [|intros _; exact G3].
    intros _. split; [apply good_diso, G1|]. intros Hc1 Hc2 _ Co. apply G2; [exact Co|]. fold d. lia.
  - assert (Hdl : (d < n / 2 + n mod 2)%nat).
    { destruct (Nat.eq_dec (n mod 2) 0) as [Z0|Z0]; [|lia]. destruct (Nat.eq_dec d (n / 2)) as [Ed|Nd]; [|lia]. assert (n = 2 * d)%nat by lia. specialize (Hs H). discriminate. }
    pose proof (n_outer_in_out c) as Hio. fold d in Hio.
    destruct (inside_sym_spec c n_D1 s R Hdel Ps Fs) as (h2 & b2 & E2 & Hf2 & Lh2 & Ph2 & Hb2).
    { rewrite Ls. lia. }
    { lia. }
    assert (Ms : middle s = middle ss).
    { unfold middle. rewrite Ls. fold n. destruct (Nat.odd n) eqn:Eo; [|reflexivity]. f_equal. apply Hmid; auto. }
    rewrite Ls in Lh2, Hb2. rewrite Ms in *. assert (Hh1 : half s = h) by (apply Hh; exact Lh). rewrite Hh1 in Ph2.
    rewrite E2. cbn [bind]. set (s2 := h2 ++ middle ss ++ rev h2) in *.
    assert (Ls2 : length s2 = n) by (apply whole_length; exact Lh2).
    assert (Ps2 : s2 = rev s2) by (apply whole_pal, middle_rev).
    assert (Fh2 : Forall angle_ok h2) by (apply (Permutation_Forall (Permutation_sym Ph2)), Fh).
    assert (Hf3 : firstn (n_outer_in c) h2 = firstn (n_outer_in c) ss).
    { rewrite Hf2. unfold s. rewrite firstn_app. replace (n_outer_in c - length h)%nat with 0%nat by lia. cbn [firstn]. rewrite app_nil_r.
      replace (firstn (n_outer_in c) h) with (firstn (n_outer_in c) (firstn d h)) by (rewrite firstn_firstn; f_equal; lia).
      rewrite Hf, firstn_firstn. f_equal; lia. }
    pose proof (Hout h2 (n_outer_in c) Hio Lh2 Hf3) as Ho. fold s2 in Ho.
    exists s2, false, b2. split; [reflexivity|]. split; [exact Ls2|]. split; [exact Ps2|].
    split; [repeat (apply Forall_app; split); auto; apply Forall_rev, Fh2|].
    split; [unfold s2; rewrite Hh by exact Lh2; rewrite Ph2; exact Ph|]. split; [apply Hmid, Lh2|]. split.
    { intros Dt. destruct (n_outer_in_cases c) as [[Dt' _]|[_ Dn]]; [congruence|]. split; [apply Ho; lia|].
      intros T. apply Ho. apply two_protected_b in T. unfold n_outer_in. rewrite T. lia. }
    split; [|discriminate]. intros [Hw|Hw]; [discriminate|]. destruct (Hb2 Hw) as [G1 G2]. rewrite d_minus in G1, G2. split; [apply good_diso, G1|].
    intros Hc1 Hc2 Hne Co. destruct (R Co) as [Hr _]. specialize (G2 Co). apply contig_blocks. rewrite Ls2.
    destruct (two_outer c) eqn:T.
    + pose proof (proj2 (two_protected_b c) T) as T'. specialize (Hne T'). assert (d = 2)%nat as D2 by (apply n_outer_out_spec, T'). fold d in G2. rewrite D2 in G2. cbn [Nat.sub] in G2.
      assert (I2 : n_outer_in c = 2%nat) by (unfold n_outer_in; rewrite T; reflexivity). rewrite I2 in Ho. rewrite <- Ls2. apply blocks_outer; [lia|rewrite Ls2; exact G2|lia| |].
      * rewrite !Ho by lia. exact Hne.
      * rewrite Ps2. rewrite rev_length. rewrite !rev_nth by lia. replace (length s2 - S (length s2 - 1))%nat with 0%nat by lia. replace (length s2 - S (length s2 - 2))%nat with 1%nat by lia.
        rewrite !Ho by lia. exact Hne.
    + assert (d = 1)%nat as D1 by (unfold d, n_outer_out; rewrite T; reflexivity). fold d in G2. rewrite D1 in G2. cbn [Nat.sub] in G2. rewrite Nat.sub_0_r in G2. exact G2.
Qed.

(* ---------------- C35: laminates that need not be symmetric ---------------- *)
(** plies the damage tolerance rule protects on each side *)
Definition n_protected (c : cons) : nat :=
  if (dam_tol c && (Nat.eqb (dam_tol_rule c) 2 || Nat.eqb (dam_tol_rule c) 3))%bool then 2%nat else if dam_tol c then 1%nat else 0%nat.
(** the sizes for which the outward repair checks all the plies (see
    [C35_last_ply_unchecked_refuted] for the others) *)
Definition fully_checked (c : cons) (n_D1 n : nat) : Prop :=
  (n - 2 * (n_protected c - 1) <> 4 + Nat.min n_D1 (n - 2 * n_protected c - 1) + n_contig c)%nat.

Theorem C35_asymmetric_partial : forall c n_D1 ss q,
  sym c = false -> contig_supported c -> (2 * n_known_outer c < length ss)%nat ->
  (forall i, (i < n_known_outer c)%nat -> nth i ss 0 <> 666 /\ nth (length ss - 1 - i) ss 0 <> 666) ->
  length q = unknown_count ss -> complete (known_plies ss) -> complete q ->
  exists s inward outward, repair_diso_contig c n_D1 ss q = Ok (s, inward, outward, []) /\
    length s = length ss /\ complete s /\ Permutation s (known_plies ss ++ q) /\
    (forall i, (i < n_protected c)%nat -> nth i s 0 = nth i ss 0 /\ nth (length ss - 1 - i) s 0 = nth (length ss - 1 - i) ss 0) /\
    (inward = true \/ outward = true -> (1 <= n_D1)%nat -> fully_checked c n_D1 (length ss) ->
      diso_rule c s /\
      ((n_contig c <= n_D1)%nat -> (n_contig c + 2 * n_known_outer c <= length ss)%nat ->
       (two_protected c -> nth 0 ss 0 <> nth 1 ss 0 /\ nth (length ss - 1) ss 0 <> nth (length ss - 2) ss 0) -> contig_rule c s)).
Proof.
  intros c n_D1 ss q Sy R Hn Ko Lq Fk Fq. change (n_known_outer c) with (n_outer_out c) in *. unfold fully_checked. change (n_protected c) with (n_outer_in c).
  pose proof (n_outer_out_cases c) as Hd0. set (d := n_outer_out c) in *. set (n := length ss) in *.
  pose proof (n_outer_in_out c) as Hio. fold d in Hio.
  destruct (outside_asym_spec c n_D1 ss q R ltac:(fold d n; lia)) as (s & b & E & Hf & Hl & Ls & Ph & Hb).
  { apply Forall_forall. intros x Hx. apply (In_nth _ _ 0) in Hx. destruct Hx as [i [Hi <-]]. rewrite firstn_length in Hi. fold d n in Hi. rewrite nth_firstn by (fold d; lia). apply Ko. lia. }
  { apply Forall_forall. intros x Hx. apply (In_nth _ _ 0) in Hx. destruct Hx as [i [Hi <-]]. rewrite lastn_length in Hi by (fold d n; lia). fold d in Hi.
    rewrite lastn_skipn, nth_skipn. fold d n. replace (n - d + i)%nat with (n - 1 - (d - 1 - i))%nat by lia. apply Ko. lia. }
  { exact Lq. }
  { apply Forall_app; split; assumption. }
  fold d n in Hf, Hl, Ls, Hb. unfold repair_diso_contig. rewrite Sy, E. cbn [bind].
  assert (Fs : Forall angle_ok s) by (apply (Permutation_Forall (Permutation_sym Ph)); apply Forall_app; split; assumption).
  assert (Hout : forall s' m, (m <= d)%nat -> length s' = n -> firstn m s' = firstn m ss -> lastn m s' = lastn m ss ->
    forall i, (i < m)%nat -> nth i s' 0 = nth i ss 0 /\ nth (n - 1 - i) s' 0 = nth (n - 1 - i) ss 0).
  { intros s' m Hm L' F1 F2 i Hi. split.
    - transitivity (nth i (firstn m s') 0); [rewrite nth_firstn by lia; reflexivity|]. rewrite F1, nth_firstn by lia. reflexivity.
    - assert (X : forall l : list Z, length l = n -> nth (n - 1 - i) l 0 = nth (m - 1 - i) (lastn m l) 0).
      { intros l Ll. rewrite lastn_skipn, nth_skipn, Ll. f_equal. lia. }
      rewrite (X s' L'), (X ss eq_refl), F2. reflexivity. }
  destruct b.
  - exists s, true, true. split; [reflexivity|]. split; [exact Ls|]. split; [exact Fs|]. split; [exact Ph|]. split.
    { intros i Hi. apply (Hout s d (Nat.le_refl d) Ls Hf Hl). lia. }
    intros _ Hd1 _. destruct (Hb eq_refl) as [G1 G2]. split; [apply good_diso, G1, Hd1|]. intros Hc1 Hc2 _ Co. apply G2; [exact Co|]. lia.
  - destruct (inside_asym_spec c n_D1 s R Fs ltac:(lia)) as (s2 & b2 & E2 & Hf2 & Hl2 & Ls2 & Ph2 & Hb2).
    rewrite Ls in Ls2, Hb2. rewrite E2. cbn [bind].
    assert (Hf3 : firstn (n_outer_in c) s2 = firstn (n_outer_in c) ss).
    { rewrite Hf2. replace (firstn (n_outer_in c) s) with (firstn (n_outer_in c) (firstn d s)) by (rewrite firstn_firstn; f_equal; lia).
      rewrite Hf, firstn_firstn. f_equal; lia. }
    assert (Hl3 : lastn (n_outer_in c) s2 = lastn (n_outer_in c) ss).
    { rewrite Hl2. assert (X : forall l : list Z, length l = n -> lastn (n_outer_in c) l = lastn (n_outer_in c) (lastn d l)).
      { intros l Ll. rewrite !lastn_skipn, skipn_skipn, skipn_length, Ll. f_equal. lia. }
      rewrite (X s Ls), (X ss eq_refl), Hl. reflexivity. }
    pose proof (Hout s2 (n_outer_in c) Hio Ls2 Hf3 Hl3) as Ho.
    exists s2, false, b2. split; [reflexivity|]. split; [exact Ls2|]. split; [apply (Permutation_Forall (Permutation_sym Ph2)), Fs|].
    split; [rewrite Ph2; exact Ph|]. split; [exact Ho|].
    intros [Hw|Hw]; [discriminate|]. intros _ Hfc. destruct (Hb2 Hw Hfc) as [G1 G2]. rewrite d_minus in G1, G2. split; [apply good_diso, G1|].
    intros Hc1 Hc2 Hne Co. destruct (R Co) as [Hr _]. specialize (G2 Co). apply contig_blocks. rewrite Ls2.
    destruct (two_outer c) eqn:T.
    + pose proof (proj2 (two_protected_b c) T) as T'. destruct (Hne T') as [Hne1 Hne2]. assert (d = 2)%nat as D2 by (apply n_outer_out_spec, T'). fold d in G2. rewrite D2 in G2. cbn [Nat.sub] in G2.
      assert (I2 : n_outer_in c = 2%nat) by (unfold n_outer_in; rewrite T; reflexivity). rewrite I2 in Ho. rewrite <- Ls2. apply blocks_outer; [lia|rewrite Ls2; exact G2|lia| |].
      * rewrite (proj1 (Ho 0%nat ltac:(lia))), (proj1 (Ho 1%nat ltac:(lia))). exact Hne1.
      * rewrite Ls2. pose proof (proj2 (Ho 0%nat ltac:(lia))) as H0. pose proof (proj2 (Ho 1%nat ltac:(lia))) as H1.
        rewrite Nat.sub_0_r in H0. replace (n - 2)%nat with (n - 1 - 1)%nat by lia. rewrite H0, H1. replace (n - 1 - 1)%nat with (n - 2)%nat by lia. exact Hne2.
    + assert (d = 1)%nat as D1 by (unfold d, n_outer_out; rewrite T; reflexivity). fold d in G2. rewrite D1 in G2. cbn [Nat.sub] in G2. rewrite Nat.sub_0_r in G2. exact G2.
Qed.

(* ---------------- concrete cases ---------------- *)
Definition args_rd (sy dt di : bool) (rule nc : nat) : cargs := {|
  a_sym := sy; a_bal := false; a_oopo := false; a_dam_tol := dt;
  a_rule_10_percent := false; a_rule_10_Abdalla := false; a_percent_Abdalla := 0;
  a_combine_45_135 := true; a_calc_combine_45_135 := true;
  a_percent_0 := 0; a_percent_45 := 0; a_percent_90 := 0; a_percent_135 := 0;
  a_percent_45_135 := 0;
  a_diso := di; a_contig := true; a_n_contig := nc; a_delta_angle := 45;
  a_dam_tol_rule := rule; a_set_of_angles := [0; 45; 90; -45]; a_min_drop := 1;
  a_pdl_spacing := false; a_covering := false; a_n_covering := 0 |}.

(** hypotheses of [C35_symmetric_partial] on a laminate with unknown plies; both directions work *)
Example C35_symmetric_example : exists c, mk_cons (args_rd true true true 2 3) = Ok c /\
  let ss := [45; -45; 666; 0; 0; 666; 0; 0; 666; 0; 0; 666; -45; 45] in
  sym c = true /\ contig_supported c /\ (diso c = true -> 0 <= delta_angle c) /\ ss = rev ss /\
  (2 * n_known_outer c <= length ss)%nat /\ (forall i, (i < n_known_outer c)%nat -> nth i ss 0 <> 666) /\
  length [90; 45] = unknown_count (first_half ss) /\ complete (known_plies (first_half ss)) /\ complete [90; 45] /\
  (Nat.odd (length ss) = true -> angle_ok (nth (length ss / 2) ss 0)) /\ (n_contig c <= 6 + 1)%nat /\
  (n_contig c + n_known_outer c <= length ss / 2 + 1)%nat /\ (two_protected c -> nth 0 ss 0 <> nth 1 ss 0) /\
  repair_diso_contig c 6 ss [90; 45] = Ok ([45; -45; 90; 0; 0; 45; 0; 0; 45; 0; 0; 90; -45; 45], false, false, []) /\
  repair_diso_contig c 2 ss [0; 45] = Ok ([45; -45; 0; 0; 0; 45; 0; 0; 45; 0; 0; 0; -45; 45], true, true, []) /\
  repair_diso_contig c 6 ss [0; 45] = Ok ([45; -45; 0; 0; 0; 45; 0; 0; 45; 0; 0; 0; -45; 45], false, true, []).
Proof.
  destruct (mk_cons (args_rd true true true 2 3)) as [c|] eqn:E; [|vm_compute in E; discriminate]. exists c. split; [reflexivity|].
  vm_compute in E. injection E as <-. cbv zeta. split; [reflexivity|]. split; [intros _; vm_compute; split; [lia|reflexivity]|]. split; [intros _; vm_compute; discriminate|].
  split; [reflexivity|]. split; [vm_compute; lia|]. split; [intros i Hi; vm_compute in Hi; destruct i as [|[|i]]; [discriminate|discriminate|lia]|].
  split; [reflexivity|]. assert (A : forall a, In a [0; 45; 90; -45] -> angle_ok a) by (intros a Ha; cbn in Ha; unfold angle_ok; lia).
  split; [repeat constructor; apply A; cbn; tauto|]. split; [repeat constructor; apply A; cbn; tauto|]. split; [discriminate|].
  split; [vm_compute; lia|]. split; [vm_compute; lia|]. split; [discriminate|]. split; [vm_compute; reflexivity|]. split; vm_compute; reflexivity.
Qed.

Lemma angles4 l : forallb (fun a => memb a [0; 45; 90; -45]) l = true -> complete l.
Proof.
  intros H. rewrite forallb_forall in H. apply Forall_forall. intros a Ha. specialize (H a Ha). unfold memb in H. cbn [existsb] in H.
  rewrite !orb_true_iff, !Z.eqb_eq in H. unfold angle_ok. intuition (subst; try lia; discriminate).
Qed.

Example C35_asymmetric_example : exists c, mk_cons (args_rd false true true 1 3) = Ok c /\
  let ss := [45; 0; 666; 90; 90; 0; 0; 0; 45; 90; 45; 666; -45; 45] in
  sym c = false /\ contig_supported c /\ (2 * n_known_outer c < length ss)%nat /\
  (forall i, (i < n_known_outer c)%nat -> nth i ss 0 <> 666 /\ nth (length ss - 1 - i) ss 0 <> 666) /\
  length [0; -45] = unknown_count ss /\ complete (known_plies ss) /\ complete [0; -45] /\ fully_checked c 6 (length ss) /\
  (n_contig c <= 6)%nat /\ (n_contig c + 2 * n_known_outer c <= length ss)%nat /\ ~ two_protected c /\
  repair_diso_contig c 6 ss [0; -45] = Ok ([45; 0; -45; 90; 45; 0; 0; 0; 45; 90; 90; -45; 0; 45], true, true, []).
Proof.
  destruct (mk_cons (args_rd false true true 1 3)) as [c|] eqn:E; [|vm_compute in E; discriminate]. exists c. split; [reflexivity|].
  vm_compute in E. injection E as <-. cbv zeta. split; [reflexivity|]. split; [intros _; vm_compute; split; [lia|reflexivity]|]. split; [vm_compute; lia|].
  split; [intros i Hi; vm_compute in Hi; destruct i as [|i]; [split; discriminate|lia]|]. split; [reflexivity|].
  split; [apply angles4; reflexivity|]. split; [apply angles4; reflexivity|]. split; [vm_compute; discriminate|]. split; [vm_compute; lia|]. split; [vm_compute; lia|].
  split; [intros [_ [H|H]]; discriminate|]. vm_compute; reflexivity.
Qed.

(* ---------------- where the repair reports success wrongly ---------------- *)
(** the success of the repair should mean that the laminate it returns is complete and
    satisfies the rules *)
Definition success_sound (c : cons) (n_D1 : nat) (ss q : list Z) : Prop :=
  forall s inward outward q', repair_diso_contig c n_D1 ss q = Ok (s, inward, outward, q') -> inward = true \/ outward = true ->
  complete s /\ diso_rule c s /\ contig_rule c s.

(** default size of the last permutation (6), complete asymmetric laminate of 13 plies without
    damage tolerance: the outward repair leaves the last ply unchecked *)
Theorem C35_last_ply_unchecked_refuted : ~ (forall c ss, sym c = false -> contig_supported c -> (3 <= length ss)%nat -> complete ss ->
  success_sound c 6 ss []).
Proof.
  intros H. destruct (mk_cons (args_rd false false true 1 3)) as [c|] eqn:E; [|vm_compute in E; discriminate].
  specialize (H c [90; 90; 90; 45; 0; 90; 0; -45; 90; -45; 90; 90; 0]). vm_compute in E. injection E as <-.
  destruct (H eq_refl ltac:(intros _; vm_compute; split; [lia|reflexivity]) ltac:(cbn [length]; lia) ltac:(apply angles4; reflexivity)
    [90; 90; 90; 45; 0; 0; -45; 90; 90; 90; -45; 90; 0] false true []) as (_ & D & _); [vm_compute; reflexivity|right; reflexivity|].
  destruct (D eq_refl) as [D1 _]. specialize (D1 ltac:(intros [X _]; discriminate) 90 0).
  destruct D1 as [k Hk]; [exists [90; 90; 90; 45; 0; 0; -45; 90; 90; 90; -45], []; reflexivity|]. cbn [delta_angle] in Hk. lia.
Qed.

(** default size of the last permutation, symmetric laminate of 6 plies, damage tolerance rule 2,
    no disorientation rule: the four plies at the centre are not checked together *)
Theorem C35_centre_block_refuted : ~ (forall c ss, sym c = true -> contig_supported c -> (4 <= length ss)%nat -> complete ss -> ss = rev ss ->
  nth 0 ss 0 <> nth 1 ss 0 -> success_sound c 6 ss []).
Proof.
  intros H. destruct (mk_cons (args_rd true true false 2 3)) as [c|] eqn:E; [|vm_compute in E; discriminate].
  specialize (H c [-45; 45; 45; 45; 45; -45]). vm_compute in E. injection E as <-.
  destruct (H eq_refl ltac:(intros _; vm_compute; split; [lia|reflexivity]) ltac:(cbn [length]; lia) ltac:(apply angles4; reflexivity) eq_refl ltac:(discriminate)
    [-45; 45; 45; 45; 45; -45] true true []) as (_ & _ & D); [vm_compute; reflexivity|right; reflexivity|].
  apply (D eq_refl). apply has_block_nth. exists 1%nat. split; [cbn; lia|]. intros k Hk. cbn in Hk. do 4 (destruct k as [|k]; [reflexivity|]). lia.
Qed.

(** damage tolerance rule 3 (two outer plies at +-45, possibly equal): a block that starts with the
    outermost ply is not seen by the outward repair *)
Theorem C35_outer_block_refuted : ~ (forall c ss, sym c = true -> contig_supported c -> (12 <= length ss)%nat -> complete ss -> ss = rev ss ->
  success_sound c 6 ss []).
Proof.
  intros H. destruct (mk_cons (args_rd true true true 3 3)) as [c|] eqn:E; [|vm_compute in E; discriminate].
  specialize (H c [45; 45; 90; 45; 45; 45; 45; 45; 45; 90; 45; 45]). vm_compute in E. injection E as <-.
  destruct (H eq_refl ltac:(intros _; vm_compute; split; [lia|reflexivity]) ltac:(cbn [length]; lia) ltac:(apply angles4; reflexivity) eq_refl
    [45; 45; 45; 45; 90; 45; 45; 90; 45; 45; 45; 45] false true []) as (_ & _ & D); [vm_compute; reflexivity|right; reflexivity|].
  apply (D eq_refl). apply has_block_nth. exists 0%nat. split; [cbn; lia|]. intros k Hk. cbn in Hk. do 4 (destruct k as [|k]; [reflexivity|]). lia.
Qed.

(** an unknown protected ply stays unknown although the repair reports success *)
Theorem C35_unknown_outer_ply_refuted : ~ (forall c ss q, sym c = true -> contig_supported c -> ss = rev ss ->
  length q = unknown_count (first_half ss) -> complete (known_plies ss) -> complete q -> success_sound c 6 ss q).
Proof.
  intros H. destruct (mk_cons (args_rd true true true 2 3)) as [c|] eqn:E; [|vm_compute in E; discriminate].
  specialize (H c [666; -45; 0; 45; 45; 0; -45; 666] [45]). vm_compute in E. injection E as <-.
  destruct (H eq_refl ltac:(intros _; vm_compute; split; [lia|reflexivity]) eq_refl eq_refl ltac:(apply angles4; reflexivity) ltac:(apply angles4; reflexivity)
    [666; -45; 0; 45; 45; 0; -45; 666] false true [45]) as (D & _); [vm_compute; reflexivity|right; reflexivity|].
  inversion D as [|x l F _]; subst. destruct F; lia.
Qed.

(* ---------------- C53: laminates that already satisfy the rules ---------------- *)
Lemma diso_rule_good c s : (2 <= length s)%nat -> diso_rule c s -> good_whole c (n_outer_out c - 1) s.
Proof.
  intros L D Di. destruct (D Di) as [D1 D2]. destruct (n_outer_out_spec c) as [O2 O1].
  destruct (two_outer c) eqn:T.
  - apply two_protected_b in T. rewrite (O2 T). cbn [Nat.sub].
    destruct s as [|a s]; [cbn [length] in L; lia|]. destruct (exists_last (l := s)) as [m [b E]]; [intros ->; cbn [length] in L; lia|]. subst s.
    specialize (D2 T m (or_introl (ex_intro _ a (ex_intro _ b eq_refl)))). apply diso_pairs in D2.
    pose proof (pairs_seg (delta_angle c) [a] m [b] 0 _ D2 ltac:(lia)) as X. cbn [app length] in *. rewrite app_length. cbn [length]. eapply pairs_sub; [exact X|lia|lia].
  - assert (N : ~ two_protected c) by (intros X; apply two_protected_b in X; congruence). rewrite (O1 N). cbn [Nat.sub]. rewrite Nat.sub_0_r. apply diso_pairs, D1, N.
Qed.

(** a symmetric laminate that is complete and satisfies the rules is returned unchanged by the
    inward repair, unless two outer plies are protected, break the disorientation rule with each
    other (which the rule allows) and the laminate is short *)
Theorem C53_symmetric_unchanged_partial : forall c n_D1 ss,
  sym c = true -> contig_supported c -> (diso c = true -> 0 <= delta_angle c) ->
  ss = rev ss -> (2 * n_known_outer c <= length ss)%nat -> complete ss -> diso_rule c ss -> contig_rule c ss ->
  (diso c = true -> two_protected c -> (length ss / 2 <= 2 * Nat.min n_D1 (length ss / 2 - 2) + 1)%nat ->
     diso_ok (delta_angle c) (nth 0 ss 0) (nth 1 ss 0)) ->
  repair_diso_contig c n_D1 ss [] = Ok (ss, true, true, []).
Proof.
  intros c n_D1 ss Sy R Hdel Pal Hn Fa D C Hp. change (n_known_outer c) with (n_outer_out c) in Hn.
  pose proof (n_outer_out_cases c) as Hd0.
  destruct (outside_sym_id c n_D1 ss R Hdel Pal Hn Fa (diso_rule_good c ss ltac:(lia) D) C) as (b & E & Hb).
  unfold repair_diso_contig. rewrite Sy, E. cbn [bind].
  assert (b = true) as ->; [|reflexivity]. apply Hb. intros Di O2 Hsm. apply Hp; auto.
  destruct (two_outer c) eqn:T; [apply two_protected_b, T|]. unfold n_outer_out in O2. rewrite T in O2. discriminate.
Qed.
Example C53_example : exists c, mk_cons (args_rd true true true 1 3) = Ok c /\
  let ss := [45; 0; -45; 90; 90; 45; 0; 0; 45; 90; 90; -45; 0; 45] in
  sym c = true /\ contig_supported c /\ ss = rev ss /\ complete ss /\ diso_rule c ss /\ contig_rule c ss /\ ~ two_protected c /\
  repair_diso_contig c 6 ss [] = Ok (ss, true, true, []).
Proof.
  destruct (mk_cons (args_rd true true true 1 3)) as [c|] eqn:E; [|vm_compute in E; discriminate]. exists c. split; [reflexivity|].
  vm_compute in E. injection E as <-. cbv zeta. split; [reflexivity|]. split; [intros _; vm_compute; split; [lia|reflexivity]|]. split; [reflexivity|].
  assert (Fa : complete [45; 0; -45; 90; 90; 45; 0; 0; 45; 90; 90; -45; 0; 45]) by (apply angles4; reflexivity).
  split; [exact Fa|]. split.
  { intros _. split; [|intros [_ [H|H]]; discriminate]. intros _. destruct (is_diso_ss_off _ 45 Fa) as [d [Ed Hd]]. vm_compute in Ed. injection Ed as <-. apply Hd; reflexivity. }
  split. { intros _. destruct (is_contig_spec 3 [45; 0; -45; 90; 90; 45; 0; 0; 45; 90; 90; -45; 0; 45] ltac:(lia)) as [b [Eb Hb]]. vm_compute in Eb. injection Eb as <-. apply Hb; reflexivity. }
  split; [intros [_ [H|H]]; discriminate|]. vm_compute; reflexivity.
Qed.

(** with the damage tolerance rule 2 (outer plies 45/-45) a conforming symmetric laminate of 14
    plies is rearranged by the default repair: the inward repair fails on the outer pair and the
    outward repair takes the outer plies in reverse order *)
Theorem C53_protected_plies_refuted : ~ (forall c ss, sym c = true -> contig_supported c -> ss = rev ss -> (4 <= length ss)%nat ->
  complete ss -> diso_rule c ss -> contig_rule c ss -> exists inward outward q, repair_diso_contig c 6 ss [] = Ok (ss, inward, outward, q)).
Proof.
  intros H. destruct (mk_cons args_full) as [c|] eqn:E; [|vm_compute in E; discriminate]. specialize (H c stack_ok). vm_compute in E. injection E as <-.
  assert (Fa : complete stack_ok) by (apply angles4; reflexivity). specialize (H eq_refl).
  destruct H as (i & o & q & E); [| | | | | |vm_compute in E; discriminate E].
  - intros _. vm_compute. split; [lia|reflexivity].
  - reflexivity.
  - cbn. lia.
  - exact Fa.
  - intros _. split; [intros N; exfalso; apply N; split; [reflexivity|left; reflexivity]|]. intros _ m [(a & b & Em)|[L _]]; [|cbn in L; lia].
    unfold stack_ok in Em. assert (Ea : a = 45) by (injection Em; auto). subst a. assert (Em2 : [-45; 0; 45; 90; -45; 0; 0; -45; 90; 45; 0; -45; 45] = m ++ [b]) by (injection Em; auto). clear Em. rename Em2 into Em. change [-45; 0; 45; 90; -45; 0; 0; -45; 90; 45; 0; -45; 45] with ([-45; 0; 45; 90; -45; 0; 0; -45; 90; 45; 0; -45] ++ [45]) in Em.
    apply app_inj_tail in Em. destruct Em as [<- _].
    destruct (is_diso_ss_off [-45; 0; 45; 90; -45; 0; 0; -45; 90; 45; 0; -45] 45 ltac:(apply angles4; reflexivity)) as [d [Ed Hd]]. vm_compute in Ed. injection Ed as <-. apply Hd; reflexivity.
  - intros _. destruct (is_contig_spec 3 stack_ok ltac:(lia)) as [b [Eb Hb]]. vm_compute in Eb. injection Eb as <-. apply Hb; reflexivity.
Qed.

(** asymmetric laminates: the last group is permuted from an order alternating between the two
    sides (the indices are sorted too late), so that a conforming laminate can be rearranged *)
Theorem C53_asymmetric_refuted : ~ (forall c ss, sym c = false -> contig_supported c -> (3 <= length ss)%nat ->
  complete ss -> diso_rule c ss -> contig_rule c ss -> exists inward outward q, repair_diso_contig c 6 ss [] = Ok (ss, inward, outward, q)).
Proof.
  intros H. destruct (mk_cons (args_rd false false true 1 3)) as [c|] eqn:E; [|vm_compute in E; discriminate].
  specialize (H c [0; 45; 90; 90; 45; 0; -45; 0]). vm_compute in E. injection E as <-. specialize (H eq_refl).
  assert (Fa : complete [0; 45; 90; 90; 45; 0; -45; 0]) by (apply angles4; reflexivity).
  destruct H as (i & o & q & E); [| | | | |vm_compute in E; discriminate E].
  - intros _. vm_compute. split; [lia|reflexivity].
  - cbn. lia.
  - exact Fa.
  - intros _. split; [|intros [X _]; discriminate]. intros _. destruct (is_diso_ss_off _ 45 Fa) as [d [Ed Hd]]. vm_compute in Ed. injection Ed as <-. apply Hd; reflexivity.
  - intros _. destruct (is_contig_spec 3 [0; 45; 90; 90; 45; 0; -45; 0] ltac:(lia)) as [b [Eb Hb]]. vm_compute in Eb. injection Eb as <-. apply Hb; reflexivity.
Qed.

(** the arrangement of the last plies is the lexicographically first that passes the tests *)
Theorem C53_smallest_row : forall rows : list (list nat), (forall r r', In r rows -> In r' rows -> length r = length r') ->
  match smallest_row rows with
  | None => rows = []
  | Some r => In r rows /\ forall r', In r' rows ->
      r = r' \/ exists k, (forall j, (j < k)%nat -> nth j r 0%nat = nth j r' 0%nat) /\ (nth k r 0 < nth k r' 0)%nat
  end.
Proof. intros rows H. exact (smallest_row_spec rows H). Qed.

(** candidate angles for an unknown ply come from the queue *)
Theorem C35_candidates_from_queue : forall adjacent q c x, In x (order_plies_to_test adjacent q c) -> In x q.
Proof. exact order_in. Qed.

(** the list of candidate laminates is tried in order: the first success is returned with its
    index, otherwise the first laminate is returned, as repaired without success, with index 0 *)
Lemma list_loop_ok c n_D1 : forall l ind ss0, (forall x, In x l -> exists s i o q, repair_diso_contig c n_D1 (fst x) (snd x) = Ok (s, i, o, q)) ->
  (ind = 0%nat -> ss0 = None) -> (ind <> 0%nat -> ss0 <> None) -> (ind + length l <> 0)%nat ->
  exists s i o k, repair_list_loop c n_D1 l ind ss0 = Ok (s, i, o, k) /\
   ((i = true \/ o = true) ->
      exists ss q q', (ind <= k)%nat /\ nth_error l (k - ind) = Some (ss, q) /\ repair_diso_contig c n_D1 ss q = Ok (s, i, o, q') /\
        forall j ss' q'' s' i' o' r, (j < k - ind)%nat -> nth_error l j = Some (ss', q'') -> repair_diso_contig c n_D1 ss' q'' = Ok (s', i', o', r) -> i' = false /\ o' = false) /\
   (i = false -> o = false -> k = 0%nat /\ (forall x, In x l -> exists s' q', repair_diso_contig c n_D1 (fst x) (snd x) = Ok (s', false, false, q')) /\
      (ind = 0%nat -> exists ss q q' t, l = (ss, q) :: t /\ repair_diso_contig c n_D1 ss q = Ok (s, false, false, q')) /\ (ind <> 0%nat -> ss0 = Some s)).
Proof.
  induction l as [|[ss q] l IH]; intros ind ss0 T H0 H1 Hne; cbn [repair_list_loop].
  - destruct ss0 as [s|]; [|exfalso; cbn [length] in Hne; apply H1; [lia|reflexivity]].
    exists s, false, false, 0%nat. split; [reflexivity|]. split; [intros [X|X]; discriminate|]. intros _ _. split; [reflexivity|]. split; [intros x []|].
    split; [intros ->; cbn [length] in Hne; lia|reflexivity].
  - destruct (T (ss, q) (or_introl eq_refl)) as (s & i & o & q' & E). cbn [fst snd] in E. rewrite E. cbn [bind].
    destruct (i || o)%bool eqn:Eio.
    + exists s, i, o, ind. split; [reflexivity|]. split.
      * intros _. exists ss, q, q'. split; [lia|]. rewrite Nat.sub_diag. split; [reflexivity|]. split; [exact E|]. intros; lia.
      * intros -> ->. discriminate.
    + apply orb_false_iff in Eio. destruct Eio as [-> ->].
      destruct (IH (S ind) (if Nat.eqb ind 0 then Some s else ss0)) as (s2 & i2 & o2 & k & E2 & A & B).
      { intros x Hx. apply T. now right. }
      { discriminate. }
      { intros _. destruct (Nat.eqb_spec ind 0); [discriminate|auto]. }
      { lia. }
      exists s2, i2, o2, k. split; [exact E2|]. split.
      * intros Hs. destruct (A Hs) as (ss2 & q2 & q2' & K & N & E3 & F). exists ss2, q2, q2'. split; [lia|].
        replace (k - ind)%nat with (S (k - S ind)) by lia. cbn [nth_error]. split; [exact N|]. split; [exact E3|].
        intros j ss' q'' s' i' o' r Hj Hn Hr. destruct j as [|j]; [cbn [nth_error] in Hn; injection Hn as <- <-; rewrite E in Hr; injection Hr as <- <- <- <-; auto|].
        cbn [nth_error] in Hn. apply (F j ss' q'' s' i' o' r); auto. lia.
      * intros Hi Ho. destruct (B Hi Ho) as (K & F & Z1 & Z2). split; [exact K|]. split.
        { intros x [<-|Hx]; [exists s, q'; exact E|apply F, Hx]. }
        specialize (Z2 ltac:(discriminate)). split.
        { intros ->. cbn [Nat.eqb] in Z2. injection Z2 as ->. exists ss, q, q', l. split; [reflexivity|exact E]. }
        { intros N. destruct (Nat.eqb_spec ind 0); [congruence|exact Z2]. }
Qed.
Theorem C35_list_first_success : forall c n_D1 l, l <> [] ->
  (forall x, In x l -> exists s i o q, repair_diso_contig c n_D1 (fst x) (snd x) = Ok (s, i, o, q)) ->
  exists s i o k, repair_diso_contig_list c n_D1 l = Ok (s, i, o, k) /\
   ((i = true \/ o = true) ->
      exists ss q q', nth_error l k = Some (ss, q) /\ repair_diso_contig c n_D1 ss q = Ok (s, i, o, q') /\
        forall j ss' q'' s' i' o' r, (j < k)%nat -> nth_error l j = Some (ss', q'') -> repair_diso_contig c n_D1 ss' q'' = Ok (s', i', o', r) -> i' = false /\ o' = false) /\
   (i = false -> o = false -> k = 0%nat /\ (forall x, In x l -> exists s' q', repair_diso_contig c n_D1 (fst x) (snd x) = Ok (s', false, false, q')) /\
      exists ss q q' t, l = (ss, q) :: t /\ repair_diso_contig c n_D1 ss q = Ok (s, false, false, q')).
Proof.
  intros c n_D1 l Ne T. destruct (list_loop_ok c n_D1 l 0 None T) as (s & i & o & k & E & A & B); [reflexivity|intros X; destruct (X eq_refl)|destruct l; [congruence|cbn [length]; lia]|].
  exists s, i, o, k. split; [exact E|]. split.
  - intros H. destruct (A H) as (ss & q & q' & _ & N & E2 & F). rewrite Nat.sub_0_r in *. exists ss, q, q'. auto.
  - intros Hi Ho. destruct (B Hi Ho) as (K & F & Z & _). auto.
Qed.
Example C35_list_example : exists c, mk_cons (args_rd true true true 2 3) = Ok c /\
  repair_diso_contig_list c 6 [([45; -45; 90; 90; 0; 0; 90; 90; -45; 45], []); ([45; -45; 0; 45; 0; 0; 45; 0; -45; 45], [])] =
    Ok ([45; -45; 0; 45; 0; 0; 45; 0; -45; 45], false, true, 1%nat).
Proof.
  destruct (mk_cons (args_rd true true true 2 3)) as [c|] eqn:E; [|vm_compute in E; discriminate]. exists c. split; [reflexivity|].
  vm_compute in E. injection E as <-. vm_compute. reflexivity.
Qed.
