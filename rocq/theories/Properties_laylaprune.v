(* Properties_laylaprune.v - C78: the pruning of the single-laminate optimiser. *)
From Verif Require Import Base Constraints Guidelines SpecGuidelines GuidelinesProofs PdlTools PdlToolsProofs
  GroupFilters GroupFiltersProofs Properties_filters Pruning PruningProofs Properties_pruning Moments LaylaSearch.
Local Open Scope Z_scope.

Lemma is_last n level : (Nat.odd n && Nat.eqb level (n / 2))%bool = (Nat.eqb (S level) (n_half n) && Nat.odd n)%bool.
Proof.
  unfold n_half. destruct (Nat.odd n) eqn:E; [|rewrite andb_false_r; reflexivity]. rewrite andb_true_r. cbn [andb].
  pose proof (Nat.div_mod n 2 ltac:(lia)). rewrite <- Nat.bit0_odd, Nat.bit0_eqb in E. apply Nat.eqb_eq in E.
  destruct (Nat.eqb_spec level (n / 2)), (Nat.eqb_spec (S level) (n / 2 + n mod 2)); auto; lia.
Qed.

(** only the last n_contig plies matter for the next ply *)
Lemma contig_cut n b0 b a : (n <= length b \/ b0 = [])%nat -> contig_stack n (b0 ++ b) ->
  (contig_stack n (b ++ [a]) <-> contig_stack n ((b0 ++ b) ++ [a])).
Proof.
  intros [L| ->] Hb; [|reflexivity]. split; intros H B.
  - apply has_block_nth in B; destruct B as [i [Hi Hk]]. rewrite !app_length in Hi. cbn [length] in Hi.
    destruct (Nat.lt_ge_cases (i + n) (length b0 + length b)) as [C1|C1].
    + apply Hb. apply (block_inside n [] (b0 ++ b) [a] i); [cbn; lia|rewrite app_length; cbn; lia|exact Hk].
    + apply H. rewrite <- app_assoc in Hk. apply (block_inside n b0 (b ++ [a]) [] i); [lia|rewrite app_length; cbn; lia|].
      rewrite app_nil_r. exact Hk.
  - apply H. rewrite <- app_assoc. apply (has_block_within _ b0 (b ++ [a]) []) in B. rewrite app_nil_r in B. exact B.
Qed.

Lemma simp_cut c ss_bot : ((contig c = true \/ diso c = true) -> (1 <= n_contig c)%nat) -> exists b0, ss_bot = b0 ++ simp_bot c ss_bot /\ (b0 = [] \/ (length (simp_bot c ss_bot) = n_contig c /\ (1 <= n_contig c)%nat)).
Proof.
  intros Hn. unfold simp_bot. destruct (contig c || diso c)%bool eqn:E; cbn [andb]; [|exists []; auto].
  destruct (Nat.ltb_spec (n_contig c) (length ss_bot)) as [L|L]; [|exists []; auto].
  destruct (lastn_split (n_contig c) ss_bot ltac:(lia)) as [l0 [H1 H2]]. exists l0. split; auto. right; split; auto.
  apply Hn. apply orb_true_iff in E. exact E.
Qed.

Lemma lastn_app {A} k (a b : list A) : (length b <= k)%nat -> lastn k (a ++ b) = lastn (k - length b) a ++ b.
Proof.
  intros H. unfold lastn. rewrite skipn_app, app_length. f_equal; [f_equal; lia|].
  replace (length a + length b - k - length a)%nat with 0%nat by lia. reflexivity.
Qed.
Lemma lastn_app2 {A} k (a b : list A) : (k <= length b)%nat -> lastn k (a ++ b) = lastn k b.
Proof.
  intros H. unfold lastn. rewrite skipn_app, app_length. rewrite (skipn_all2 a) by lia. cbn [app]. f_equal; lia.
Qed.

(** the plies kept below the innermost one: all of them or the last n_contig ones *)
Lemma l_before_spec c sb bot : let n := n_contig c in
  (n <= length bot \/ (2 * length bot <= n /\ (n <= length sb + length bot \/ 2 * length sb + length bot <= n)))%nat ->
  (n <= length sb + length bot /\ l_before c sb bot = lastn n (sb ++ bot))%nat \/ l_before c sb bot = sb ++ bot.
Proof.
  cbv zeta. intros [H|[H [H1|H1]]]; unfold l_before.
  - rewrite (py_from_lastn _ (n_contig c)) by auto. assert (L : length (lastn (n_contig c) bot) = n_contig c) by (unfold lastn; rewrite skipn_length; lia).
    rewrite L, Nat.ltb_irrefl. left. split; [lia|]. rewrite lastn_app2; auto.
  - rewrite (py_from_all _ (n_contig c)) by auto. destruct (Nat.ltb_spec (length bot) (n_contig c)) as [L|L].
    + left. split; [lia|]. rewrite lastn_app by lia. f_equal. apply (py_from_lastn _ (n_contig c - length bot)); [unfold zlen; lia|lia].
    + left. split; [lia|]. rewrite lastn_app2 by lia. unfold lastn. replace (length bot - n_contig c)%nat with 0%nat by lia. reflexivity.
  - rewrite (py_from_all _ (n_contig c)) by auto. destruct (Nat.ltb_spec (length bot) (n_contig c)) as [L|L].
    + right. f_equal. apply (py_from_all _ (n_contig c - length bot)); [unfold zlen; lia|lia].
    + right. destruct sb; [reflexivity|cbn in H1; lia].
Qed.

Section Sym.
Variables (c : cons) (n : nat) (ss_bot mother : list Z).
Let sb := simp_bot c ss_bot.
Let bot := ss_bot ++ mother.
Hypothesis Hs : sym c = true.
Hypothesis Hcd : (contig c = true \/ diso c = true) -> (1 <= n_contig c)%nat.

Lemma l_diso_sym level st top child : Forall angle_ok bot -> Forall angle_ok child ->
  exists p, (if diso c then l_prune_diso c n level sb mother st top child else Ok child) = Ok (filter p child) /\
    forall a, In a child -> (p a = true <-> diso_good c bot a).
Proof.
  intros Hb Hc. pose proof (simp_cut c ss_bot Hcd) as SC. unfold diso_good. destruct (diso c) eqn:Ed.
  2:{ exists (fun _ => true); rewrite filter_true'; split; [reflexivity|]; intros; split; [discriminate|auto]. }
  unfold l_prune_diso; rewrite Hs; cbn [orb negb andb].
  assert (E : (match mother with [] => py_get sb (-1) | _ => py_get mother (-1) end) = py_get bot (-1)).
  { unfold bot. destruct mother as [|m0 m'].
    - rewrite app_nil_r. destruct SC as [b0 [E1 E2]]. fold sb in E1, E2. destruct E2 as [->|[E2 E3]]; [cbn in E1; congruence|].
      destruct sb as [|y s _] using rev_ind; [cbn in E2; lia|]. rewrite E1, app_assoc, !py_get_last. reflexivity.
    - destruct (m0 :: m') as [|y s _] eqn:Em using rev_ind; [discriminate|]. rewrite app_assoc, !py_get_last. reflexivity. }
  rewrite E. destruct bot as [|y b0 _] using rev_ind.
  - cbn. exists (fun _ => true); rewrite filter_true'; split; [reflexivity|]; intros; split; auto.
    intros _ _ b0 y E'; destruct b0; discriminate.
  - rewrite py_get_last. cbn [filter_diso]. eexists; split; [reflexivity|]; intros a Ha; cbv beta.
    rewrite is_diso_comm, is_diso_spec.
    + split; [intros H _ b1 y1 E'; apply app_inj_tail in E'; destruct E' as [_ <-]; exact H|intros H; exact (H eq_refl b0 y eq_refl)].
    + rewrite Forall_forall in Hb; apply Hb, in_or_app; right; now left.
    + rewrite Forall_forall in Hc; auto.
Qed.

Lemma l_contig_sym level child :
  (contig c = true -> (2 <= n_contig c <= 6)%nat /\ contig_stack (n_contig c) bot) ->
  (contig c = true -> S level = n_half n ->
     (n_contig c <= length mother \/ (2 * length mother <= n_contig c /\
        (n_contig c <= length bot \/ 2 * length ss_bot + length mother <= n_contig c)))%nat) ->
  exists p, (if contig c then l_prune_contig c n level sb mother child else Ok child) = Ok (filter p child) /\
    forall a, In a child -> (p a = true <-> contig_good c (Nat.eqb (S level) (n_half n)) (Nat.odd n) bot a).
Proof.
  intros Hn HL; pose proof (simp_cut c ss_bot Hcd) as SC. unfold l_prune_contig, contig_good. destruct (contig c) eqn:Ec.
  2:{ exists (fun _ => true); rewrite filter_true'; split; [reflexivity|]; intros; split; [discriminate|auto]. }
  specialize (HL eq_refl). destruct (Hn eq_refl) as [H1 H2]. rewrite Hs.
  assert (Cut : exists b0, bot = b0 ++ (sb ++ mother) /\ (b0 = [] \/ length sb = n_contig c)).
  { destruct SC as [b0 [E1 E2]]. exists b0. fold sb in E1, E2. split; [unfold bot; rewrite E1 at 1; rewrite app_assoc; reflexivity|tauto]. }
  destruct Cut as [b0 [Eb Hb0]]. assert (Hsm : contig_stack (n_contig c) (sb ++ mother)) by (eapply contig_suffix; rewrite <- Eb; exact H2).
  destruct (Nat.eqb_spec (S level) (n_half n)) as [El|El]; cbn [negb].
  - specialize (HL El). assert (HB : (n_contig c <= length sb + length mother /\ l_before c sb mother = lastn (n_contig c) (sb ++ mother))%nat \/ l_before c sb mother = sb ++ mother /\ b0 = []).
    { destruct Hb0 as [E0|E0].
      - destruct (l_before_spec c sb mother) as [G|G]; auto. assert (sb = ss_bot).
        { unfold bot in Eb. rewrite E0 in Eb. cbn [app] in Eb. apply app_inv_tail in Eb. congruence. }
        rewrite H. unfold bot in HL. rewrite app_length in HL. exact HL.
      - destruct (l_before_spec c sb mother) as [G|G]; auto.
        + destruct HL as [HL|[HL _]]; [left; exact HL|right; split; [exact HL|left; lia]].
        + left. split; [lia|]. rewrite G. unfold l_before in G. destruct (Nat.le_gt_cases (n_contig c) (length mother)) as [Q|Q].
          * rewrite (py_from_lastn _ (n_contig c)) in G by auto.
            assert (Lm : length (lastn (n_contig c) mother) = n_contig c) by (unfold lastn; rewrite skipn_length; lia).
            rewrite Lm, Nat.ltb_irrefl in G. rewrite lastn_app2 by auto. symmetry. exact G.
          * destruct HL as [HL|[HL _]]; [lia|]. rewrite (py_from_all _ (n_contig c)) in G by auto. destruct (Nat.ltb_spec (length mother) (n_contig c)); [|lia].
            rewrite (py_from_lastn _ (n_contig c - length mother)) in G by (unfold zlen; lia). rewrite lastn_app by lia. symmetry. exact G. }
    apply filterR_keeps; intros a Ha.
    destruct (internal_contig2_spec c (l_before c sb mother ++ (if Nat.odd n then [a] else [a; a]) ++ rev (l_before c sb mother)) Ec H1) as [t [E Ht]].
    exists t; split; [exact E|]. rewrite Ht. assert (M : contig_stack (n_contig c) (l_before c sb mother ++ (if Nat.odd n then [a] else [a; a]) ++ rev (l_before c sb mother)) <->
      contig_stack (n_contig c) (mirrored (Nat.odd n) bot a)).
    { unfold mirrored. destruct HB as [[L1 L2]|[L1 L2]].
      - rewrite L2. destruct (lastn_split (n_contig c) (sb ++ mother) ltac:(rewrite app_length; lia)) as [b1 [E1 L3]].
        set (ll := lastn (n_contig c) (sb ++ mother)) in *. assert (Eb' : bot = (b0 ++ b1) ++ ll) by (rewrite Eb, E1, app_assoc; reflexivity).
        rewrite Eb'. apply contig_mirror; [left; exact L3|]. rewrite <- Eb'. exact H2.
      - rewrite L1, Eb, L2. reflexivity. }
    rewrite M. tauto.
  - apply filterR_keeps; intros a Ha.
    destruct (external_one c (sb ++ mother) a Ec H1 Hsm) as [t [E Ht]]; exists t; split; [exact E|]. rewrite Ht.
    rewrite Eb. rewrite (contig_cut (n_contig c) b0 (sb ++ mother) a); [tauto| |rewrite <- Eb; exact H2].
    destruct Hb0; [right; auto|left; rewrite app_length; lia].
Qed.

(** the general part: no early return *)
Lemma l_pruning_general level st top child :
  (contig c = true -> (2 <= n_contig c <= 6)%nat /\ contig_stack (n_contig c) bot) ->
  (contig c = true -> S level = n_half n ->
     (n_contig c <= length mother \/ (2 * length mother <= n_contig c /\
        (n_contig c <= length bot \/ 2 * length ss_bot + length mother <= n_contig c)))%nat) ->
  Forall angle_ok bot -> Forall angle_ok child -> child <> [] ->
  (dam_tol c = true -> level <> 0%nat /\ ((dam_tol_rule c = 2 \/ dam_tol_rule c = 3)%nat -> level <> 1%nat)) ->
  exists r, l_pruning c n level sb mother st top child = Ok r /\
    keeps (fun a => diso_good c bot a /\ contig_good c (Nat.eqb (S level) (n_half n)) (Nat.odd n) bot a)
      (candidates c (n_half n) level (Nat.odd n) child) r.
Proof.
  intros Hn HL Hb Hch Hne Hd; unfold l_pruning.
  assert (Ec : (if (sym c && Nat.odd n && Nat.eqb level (n / 2))%bool then [0; 90] else child) = candidates c (n_half n) level (Nat.odd n) child).
  { unfold candidates. rewrite <- !andb_assoc, is_last. reflexivity. }
  rewrite Ec. set (cands := candidates c (n_half n) level (Nat.odd n) child).
  set (rule23 := (dam_tol c && (Nat.eqb (dam_tol_rule c) 2 || Nat.eqb (dam_tol_rule c) 3))%bool).
  assert (E1 : (dam_tol c && (Nat.eqb level 0 || (negb (sym c) && Nat.eqb (S level) n)))%bool = false).
  { rewrite Hs; cbn [negb andb orb]. destruct (dam_tol c); [|reflexivity]. cbn [andb]. destruct (Hd eq_refl) as [H _].
    destruct (Nat.eqb_spec level 0); [contradiction|reflexivity]. }
  assert (E2 : (rule23 && Nat.eqb level 1)%bool = false).
  { unfold rule23; destruct (dam_tol c); [|reflexivity]; cbn [andb]. destruct (Hd eq_refl) as [_ H].
    destruct (Nat.eqb_spec level 1) as [->|]; [|apply andb_false_r].
    destruct (Nat.eqb_spec (dam_tol_rule c) 2); [exfalso; apply H; auto|].
    destruct (Nat.eqb_spec (dam_tol_rule c) 3); [exfalso; apply H; auto|]. reflexivity. }
  rewrite E1, E2. rewrite Hs; cbn [negb]; rewrite andb_false_r.
  assert (Hc' : Forall angle_ok cands).
  { unfold cands, candidates; destruct (sym c && Nat.eqb (S level) (n_half n) && Nat.odd n)%bool; [|exact Hch].
    repeat constructor; unfold angle_ok; lia. }
  assert (Hne' : cands <> []) by (unfold cands, candidates; destruct (sym c && Nat.eqb (S level) (n_half n) && Nat.odd n)%bool; [discriminate|exact Hne]).
  destruct (l_diso_sym level st top cands Hb Hc') as [p [-> Hp]]; cbn [bind].
  destruct (l_contig_sym level (filter p cands) Hn HL) as [q [Eq Hq]].
  assert (K : forall a, In a cands -> ((p a && q a)%bool = true <-> diso_good c bot a /\ contig_good c (Nat.eqb (S level) (n_half n)) (Nat.odd n) bot a)).
  { intros a Ha; rewrite andb_true_iff, (Hp a Ha). split; intros [H1 H2]; split; auto; apply Hq; auto; apply filter_In; split; auto; apply Hp; auto. }
  destruct (filter p cands) as [|x l] eqn:Ef.
  - destruct (diso c) eqn:Ed; cbn [andb].
    + eexists; split; [reflexivity|]. exists (fun a => p a && q a)%bool; split; [exact K|].
      rewrite <- filter_and, Ef; reflexivity.
    + exfalso. destruct cands as [|x cands']; [congruence|]. cbn in Ef.
      assert (p x = true) as Hx. { apply Hp; [now left|]. unfold diso_good; rewrite Ed; discriminate. }
      rewrite Hx in Ef; discriminate.
  - rewrite andb_false_r, Eq; cbn [bind].
    destruct (contig c && match filter q (x :: l) with [] => true | _ => false end)%bool eqn:F.
    + eexists; split; [reflexivity|]. exists (fun a => p a && q a)%bool; split; [exact K|].
      rewrite <- filter_and, Ef. destruct (filter q (x :: l)); [reflexivity|]. rewrite andb_false_r in F; discriminate.
    + eexists; split; [reflexivity|]. exists (fun a => p a && q a)%bool; split; [exact K|].
      rewrite <- filter_and, Ef. destruct (filter q (x :: l)) as [|z m] eqn:G; [|reflexivity].
      exfalso. rewrite andb_true_r in F. cbn in G.
      assert (q x = true) as Hx. { apply Hq; [now left|]. unfold contig_good; rewrite F; discriminate. }
      rewrite Hx in G; discriminate.
Qed.
End Sym.

Theorem C78_symmetric_partial : forall c n ss_bot mother st top child,
  let bot := ss_bot ++ mother in
  sym c = true ->
  (length bot < n_half n)%nat -> child <> [] -> Forall angle_ok bot -> Forall angle_ok child ->
  (* the plies placed so far *)
  (contig c = true -> (2 <= n_contig c <= 6)%nat /\ contig_stack (n_contig c) bot) ->
  (diso c = true -> (1 <= n_contig c)%nat) ->
  (dam_tol c = true -> forall x b, bot = x :: b -> pm45 x) ->
  (* where the code is right, see the refutations below *)
  (dam_tol c = true -> (dam_tol_rule c = 2 \/ dam_tol_rule c = 3)%nat -> length bot = 1%nat -> mother <> []) ->
  (contig c = true -> S (length bot) = n_half n ->
     (n_contig c <= length mother \/ (2 * length mother <= n_contig c /\
        (n_contig c <= length bot \/ 2 * length ss_bot + length mother <= n_contig c)))%nat) ->
  (dam_tol c = true -> dam_tol_rule c = 3%nat -> length bot = 1%nat ->
     (diso c = true -> diso_ok (delta_angle c) (-45) 45) /\ (contig c = true -> n_half n = 2%nat -> (4 <= n_contig c)%nat)) ->
  exists r, l_pruning c n (length bot) (simp_bot c ss_bot) mother st top child = Ok r /\
    exactly (admissible c (n_half n) (Nat.odd n) bot) (allowed (n_half n) (Nat.odd n) bot child) r.
Proof.
  intros c n ss_bot mother st top child bot Hs Hlen Hne Hb Hch Hn Hd1 Hd Hm HL H3.
  assert (Hcd : (contig c = true \/ diso c = true) -> (1 <= n_contig c)%nat).
  { intros [G|G]; [destruct (Hn G); lia|auto]. }
  assert (Ec : candidates c (n_half n) (length bot) (Nat.odd n) child = allowed (n_half n) (Nat.odd n) bot child).
  { unfold candidates, allowed; rewrite Hs; reflexivity. }
  (* an early return: the code of BELLA *)
  assert (Early : dam_tol c = true -> (length bot = 0%nat \/ (length bot = 1%nat /\ (dam_tol_rule c = 2 \/ dam_tol_rule c = 3)%nat)) ->
    exists r, l_pruning c n (length bot) (simp_bot c ss_bot) mother st top child = Ok r /\
      exactly (admissible c (n_half n) (Nat.odd n) bot) (allowed (n_half n) (Nat.odd n) bot child) r).
  { intros Ed Hl. destruct (C30_symmetric_partial c (n_half n) (Nat.odd n) bot top child) as [r [E K]]; auto.
    { intros G1 G2. destruct Hl as [Hl|[Hl _]]; [rewrite Hl; right; lia|]. right. rewrite Hl. destruct (Hn G1). lia. }
    exists r. split; [|exact K]. rewrite <- E. unfold l_pruning, pruning. rewrite <- !andb_assoc, is_last, Ed, Hs. cbn [andb negb].
    destruct Hl as [Hl|[Hl Hr]].
    - rewrite Hl. reflexivity.
    - rewrite Hl. cbn [Nat.eqb orb]. assert (R : (Nat.eqb (dam_tol_rule c) 2 || Nat.eqb (dam_tol_rule c) 3)%bool = true) by (destruct Hr as [-> | ->]; reflexivity).
      rewrite R. cbn [andb]. specialize (Hm Ed Hr Hl). assert (ss_bot = [] /\ getR mother 0 = getR bot 0) as [_ ->]; [|reflexivity].
      subst bot. destruct ss_bot; [auto|]. destruct mother; [congruence|]. rewrite app_length in Hl. cbn in Hl. lia. }
  destruct (dam_tol c) eqn:Ed.
  2:{ destruct (l_pruning_general c n ss_bot mother Hs Hcd (length bot) st top child) as [r [E K]]; auto; [rewrite Ed; discriminate|].
      exists r; split; [exact E|]. rewrite Ec in K. apply keeps_exactly; eapply keeps_ext; [|exact K]; cbv beta. fold bot.
      intros a Ha; unfold admissible, diso_good, contig_good, with_angle, mirrored; rewrite Ed.
      split; [intros [G1 G2]; split; [try discriminate; auto|split; [try discriminate; auto|split; [try discriminate; auto|split; [intros G3 _; exact (G1 G3)|exact G2]]]]|].
      intros (_ & _ & _ & G4 & G5); split; [intros G6; apply G4; [exact G6|intros [G7 _]; discriminate]|exact G5]. }
  destruct (Nat.eq_dec (length bot) 0) as [L0|L0]; [apply Early; auto|].
  destruct (Nat.eq_dec (length bot) 1) as [L1|L1].
  - destruct (Nat.eq_dec (dam_tol_rule c) 2) as [R2|R2]; [apply Early; auto|].
    destruct (Nat.eq_dec (dam_tol_rule c) 3) as [R3|R3]; [apply Early; auto|].
    destruct (l_pruning_general c n ss_bot mother Hs Hcd (length bot) st top child) as [r [E K]]; auto.
    { intros _; split; [exact L0|]. intros [G|G]; contradiction. }
    exists r; split; [exact E|]. rewrite Ec in K. apply keeps_exactly; eapply keeps_ext; [|exact K]; cbv beta. fold bot.
    intros a Ha; unfold admissible, diso_good, contig_good, with_angle, mirrored.
    split; [intros [G1 G2]; split; [intros _ G; rewrite G in L0; cbn in L0; lia|split; [intros; contradiction|split; [intros; contradiction|split; [intros G3 _; exact (G1 G3)|exact G2]]]]|].
    intros (_ & _ & _ & G4 & G5); split; [intros G6; apply G4; [exact G6|intros [_ [[G7|G7] _]]; contradiction]|exact G5].
  - destruct (l_pruning_general c n ss_bot mother Hs Hcd (length bot) st top child) as [r [E K]]; auto.
    exists r; split; [exact E|]. rewrite Ec in K. apply keeps_exactly; eapply keeps_ext; [|exact K]; cbv beta. fold bot.
    intros a Ha; unfold admissible, diso_good, contig_good, with_angle, mirrored.
    split; [intros [G1 G2]; split; [intros _ G; rewrite G in L0; cbn in L0; lia|
      split; [intros _ _ x G; rewrite G in L1; cbn in L1; lia|split; [intros _ _ x G; rewrite G in L1; cbn in L1; lia|split; [intros G3 _; exact (G1 G3)|exact G2]]]]|].
    intros (_ & _ & _ & G4 & G5); split; [intros G6; apply G4; [exact G6|intros [_ [_ G7]]; contradiction]|exact G5].
Qed.
Print Assumptions C78_symmetric_partial.

(** damage tolerance rule 2, a first group of one ply: the second ply of the laminate is the
    first one of its group, and the code looks for its neighbour in the group *)
Theorem C78_group_of_one_refuted : forall c n x st top child,
  sym c = true -> dam_tol c = true -> dam_tol_rule c = 2%nat -> child <> [] ->
  l_pruning c n 1 (simp_bot c [x]) [] st top child = Err IndexError.
Proof.
  intros c n x st top child Hs Hd Hr Hne. unfold l_pruning. rewrite Hs, Hd, Hr. cbn [Nat.eqb andb orb negb].
  set (cands := if (Nat.odd n && _)%bool then [0; 90] else child).
  destruct cands as [|a l] eqn:E; [unfold cands in E; destruct (Nat.odd n && _)%bool; [discriminate|congruence]|].
  cbn [filterR bind]. unfold second_ply. rewrite Hr. cbn [Nat.eqb]. reflexivity.
Qed.
Print Assumptions C78_group_of_one_refuted.

(** the last group has fewer plies than n_contig: the negative start of the slice drops plies
    next to the mid-surface, and eight plies at 0 pass a limit of four; unlike in BELLA the
    laminate need not be short *)
Theorem C78_short_group_refuted :
  ~ (forall c n ss_bot mother st top child,
  let bot := ss_bot ++ mother in
  sym c = true ->
  (length bot < n_half n)%nat -> child <> [] -> Forall angle_ok bot -> Forall angle_ok child ->
  (contig c = true -> (2 <= n_contig c <= 6)%nat /\ contig_stack (n_contig c) bot) ->
  (diso c = true -> (1 <= n_contig c)%nat) -> (n_contig c <= length bot)%nat ->
  dam_tol c = false ->
  exists r, l_pruning c n (length bot) (simp_bot c ss_bot) mother st top child = Ok r /\
    exactly (admissible c (n_half n) (Nat.odd n) bot) (allowed (n_half n) (Nat.odd n) bot child) r).
Proof.
  intros H. destruct (H cons_plain 12%nat [45; 45] [0; 0; 0] [] [] [0; 45]) as [r [E [p [Hp R]]]];
    try (intros; reflexivity); try discriminate.
  - cbn; lia.
  - repeat constructor; lia.
  - repeat constructor; lia.
  - intros _; split; [cbn; lia|]. intros B; apply has_block_nth in B; destruct B as [i [Hi G]]; cbn [length] in Hi.
    cbn in Hi. assert (i = 0%nat) by lia; subst i. specialize (G 2%nat ltac:(cbn; lia)); discriminate.
  - cbn; lia.
  - cbn; lia.
  - vm_compute in E; injection E as <-.
    destruct R as [[_ R]|[_ R]]; [discriminate|].
    assert (In 0 (filter p (allowed (n_half 12) (Nat.odd 12) ([45; 45] ++ [0; 0; 0]) [0; 45]))) as Hin.
    { set (ff := filter p _) in *. assert (ff = [0; 45]) as R' by congruence. rewrite R'; now left. }
    apply filter_In in Hin; destruct Hin as [Hi1 Hi2]. apply Hp in Hi2; [|exact Hi1].
    destruct Hi2 as (_ & _ & _ & _ & G). apply (G eq_refl). exists 0, [45; 45], [0; 0; 0; 45; 45]; reflexivity.
Qed.
Print Assumptions C78_short_group_refuted.

(** the middle ply is taken from 0 and 90 even when they are not among the allowed angles *)
Theorem C78_middle_ply_refuted :
  ~ (forall c n level sb bot st top child l, child <> [] -> l_pruning c n level sb bot st top child = Ok (Some l) -> forall a, In a l -> In a child).
Proof.
  intros H. destruct (H cons_plain 5%nat 2%nat [60; 45] [] [] [] [30; 60] [0; 90] ltac:(discriminate) eq_refl 0 ltac:(cbn; auto)) as [E|[E|[]]]; discriminate.
Qed.
Print Assumptions C78_middle_ply_refuted.

(** apart from the middle ply every kept angle is one of the proposed ones *)
Theorem C78_from_allowed : forall c n level sb bot st top child l, (sym c && Nat.odd n && Nat.eqb level (n / 2))%bool = false ->
  l_pruning c n level sb bot st top child = Ok (Some l) -> forall a, In a l -> In a child.
Proof.
  intros c n level sb bot st top child l Hm. unfold l_pruning. rewrite Hm.
  assert (N : forall f, none_if_empty (filter f child) = Some l -> forall a, In a l -> In a child).
  { intros f E a Ha. destruct (filter f child) eqn:F; [discriminate|]. cbn in E. injection E as <-. rewrite <- F in Ha. apply filter_In in Ha. tauto. }
  assert (FR : forall (f : Z -> result bool) cs r, filterR f cs = Ok r -> forall a, In a r -> In a cs).
  { intros f. induction cs as [|x cs IH]; cbn [filterR]; intros r E a Ha.
    - injection E as <-. exact Ha.
    - destruct (f x) as [t|e]; cbn [bind] in E; [|discriminate]. destruct (filterR f cs) as [r'|e]; cbn [bind] in E; [|discriminate].
      injection E as <-. destruct t; [destruct Ha as [<-|Ha]; [now left|]|]; right; eapply IH; eauto. }
  assert (FO : forall o cs a, In a (filter_diso c o cs) -> In a cs).
  { intros [y|] cs a Ha; cbn in Ha; [apply filter_In in Ha; tauto|exact Ha]. }
  destruct (dam_tol c && _)%bool; [intros E; injection E as E; eapply N; eauto|].
  destruct ((dam_tol c && _) && Nat.eqb level 1)%bool.
  { destruct (filterR _ child) as [r|e] eqn:F; cbn [bind]; [|discriminate]. intros E a Ha. destruct r; [discriminate|]. injection E as <-. eapply FR; eauto. }
  destruct ((dam_tol c && _) && Nat.eqb (S (S level)) n && negb (sym c))%bool.
  { destruct (filterR _ child) as [r|e] eqn:F; cbn [bind]; [|discriminate]. intros E a Ha. destruct r; [discriminate|]. injection E as <-. eapply FR; eauto. }
  destruct (if diso c then _ else _) as [c1|e] eqn:E1; cbn [bind]; [|discriminate].
  assert (I1 : forall a, In a c1 -> In a child).
  { destruct (diso c); [|injection E1 as <-; auto]. unfold l_prune_diso in E1. destruct (negb (sym c) && _)%bool.
    - intros a Ha. eapply FR in E1; [|exact Ha]. destruct (sym c || _)%bool; eapply FO; eauto.
    - injection E1 as <-. intros a Ha. destruct (sym c || _)%bool; eapply FO; eauto. }
  destruct (diso c && _)%bool; [discriminate|].
  destruct (if contig c then _ else _) as [c2|e] eqn:E2; cbn [bind]; [|discriminate].
  assert (I2 : forall a, In a c2 -> In a c1).
  { destruct (contig c); [|injection E2 as <-; auto]. unfold l_prune_contig in E2.
    destruct (negb _); [intros a Ha; eapply FR in E2; eauto|]. destruct (sym c); intros a Ha; eapply FR in E2; eauto. }
  destruct (contig c && _)%bool; [discriminate|]. intros E a Ha. injection E as <-. auto.
Qed.
Print Assumptions C78_from_allowed.

(** asymmetric laminates: the outermost plies are exactly the angles +-45; rule 2: the plies next
    to them are opposite to them *)
Theorem C78_asymmetric_outer : forall c n level sb bot st top child,
  sym c = false -> dam_tol c = true ->
  (level = 0%nat \/ S level = n -> exists r, l_pruning c n level sb bot st top child = Ok r /\ exactly pm45 child r) /\
  (dam_tol_rule c = 2%nat -> level = 1%nat -> S level <> n -> forall x b, bot = x :: b ->
     exists r, l_pruning c n level sb bot st top child = Ok r /\ exactly (fun a => a = - x) child r) /\
  (dam_tol_rule c = 2%nat -> level <> 0%nat -> level <> 1%nat -> S (S level) = n -> forall x t, top = t ++ [x] ->
     exists r, l_pruning c n level sb bot st top child = Ok r /\ exactly (fun a => a = - x) child r).
Proof.
  intros c n level sb bot st top child Hs Hd. unfold l_pruning. rewrite Hs, Hd. cbn [andb negb].
  assert (K : forall (f : Z -> bool) (good : Z -> Prop) cs, (forall a, f a = true <-> good a) -> exactly good cs (none_if_empty (filter f cs))).
  { intros f good cs Hf. exists f. split; [intros; apply Hf|]. destruct (filter f cs); [left|right]; split; auto; discriminate. }
  split; [|split].
  - intros H. assert (E : (Nat.eqb level 0 || Nat.eqb (S level) n)%bool = true).
    { apply orb_true_iff. destruct H as [-> | <-]; [left|right]; apply Nat.eqb_refl. }
    rewrite E. eexists. split; [reflexivity|]. apply K. apply is45_spec.
  - intros Hr -> Hn x b ->. rewrite Hr. destruct (Nat.eqb_spec 2 n); [lia|]. cbn [Nat.eqb orb andb].
    rewrite (filterR_ok _ (fun a => a =? - x)).
    2:{ intros a Ha; unfold second_ply; rewrite Hr; cbn [Nat.eqb]. unfold getR; rewrite py_get_0; reflexivity. }
    cbn [bind]. eexists. split; [reflexivity|]. apply K. intros a. apply Z.eqb_eq.
  - intros Hr H0 H1 Hn x t ->. rewrite Hr. destruct (Nat.eqb_spec level 0); [lia|]. destruct (Nat.eqb_spec (S level) n); [lia|].
    destruct (Nat.eqb_spec level 1); [lia|]. destruct (Nat.eqb_spec (S (S level)) n); [|lia]. cbn [Nat.eqb orb andb].
    rewrite (filterR_ok _ (fun a => a =? - x)).
    2:{ intros a Ha; unfold second_ply; rewrite Hr; cbn [Nat.eqb]. unfold getR; rewrite py_get_last; reflexivity. }
    cbn [bind]. eexists. split; [reflexivity|]. apply K. intros a. apply Z.eqb_eq.
Qed.
Print Assumptions C78_asymmetric_outer.

(** asymmetric laminates without damage tolerance rule: the second ply searched is the top one,
    level n - 1, when no top ply is placed. With the contiguity rule, and with the disorientation
    rule if the number of plies is even, the code raises unless no angle is left *)
Theorem C78_asymmetric_second_ply_refuted : forall c n sb bot child l,
  sym c = false -> dam_tol c = false -> child <> [] ->
  (contig c = true \/ (diso c = true /\ Nat.odd n = true)) ->
  l_pruning c (S n) n sb bot [] [] child <> Ok (Some l).
Proof.
  intros c n sb bot child l Hs Hd Hne H. unfold l_pruning. rewrite Hs, Hd. cbn [andb negb].
  destruct (if diso c then _ else _) as [c1|e] eqn:E1; cbn [bind]; [|discriminate].
  destruct (diso c && match c1 with [] => true | _ => false end)%bool eqn:B; [discriminate|].
  assert (N1 : c1 <> []).
  { intros ->. destruct (diso c) eqn:Ed; [discriminate|]. injection E1 as E1. congruence. }
  destruct H as [Hc|[Hdi Hodd]].
  - rewrite Hc. unfold l_prune_contig. rewrite Hs, Nat.eqb_refl. cbn [negb]. destruct c1 as [|a c1]; [congruence|]. cbn [filterR bind]. discriminate.
  - exfalso. rewrite Hdi in E1. unfold l_prune_diso in E1. rewrite Hs, Nat.eqb_refl, Hodd in E1. cbn [orb negb andb] in E1.
    rewrite <- Nat.negb_odd, Hodd in E1. cbn [negb] in E1. set (cs := filter_diso _ _ _) in E1. clearbody cs.
    destruct cs as [|a cs]; [injection E1 as <-; congruence|]. cbn [filterR bind] in E1. discriminate.
Qed.
Print Assumptions C78_asymmetric_second_ply_refuted.

(** the other plies of an asymmetric laminate: the parity of the ply number, not its place,
    decides which neighbour is compared, and contiguity is always checked against the bottom
    plies. Six plies, the third from the bottom is searched after 45/0 below and 90/0 above; a
    ply at 0 agrees with its only placed neighbour at 0 and is refused *)
Definition cons_asym (d k : bool) : cons :=
  {| sym := false; bal := true; ipo := true; oopo := false; dam_tol := false; dam_tol_rule := 1;
     covering := true; n_covering := 1; rule_10_percent := false; rule_10_Abdalla := false; percent_Abdalla := 0%Q;
     percent_0 := 0%Q; percent_45 := 0%Q; percent_90 := 0%Q; percent_135 := 0%Q; percent_45_135 := 0%Q; percent_tot := 0%Q;
     diso := d; delta_angle := 45; contig := k; n_contig := 4; n_contig_c := Some 4%nat;
     set_of_angles := [-45; 0; 45; 90]; angles_bal := [(45, 2%nat, 0%nat)]; pdl_spacing := false; min_drop := 0 |}.
Theorem C78_asymmetric_parity_refuted :
  ~ (forall c n bot top child r, sym c = false -> dam_tol c = false -> contig c = false -> diso c = true ->
       (S (length bot + length top) < n)%nat ->
       l_pruning c n (length bot) [] bot [] top child = Ok r ->
       exactly (fun a => forall b y, bot = b ++ [y] -> diso_ok (delta_angle c) y a) child r).
Proof.
  intros H. destruct (H (cons_asym true false) 6%nat [45; 0] [90; 0] [45; 0] (Some [45]) eq_refl eq_refl eq_refl eq_refl ltac:(cbn; lia) eq_refl) as [p [Hp R]].
  destruct R as [[_ R]|[_ R]]; [discriminate|].
  assert (Hx : p 0 = true). { apply Hp; [cbn; auto|]. intros b y E. change [45; 0] with ([45] ++ [0]) in E. apply app_inj_tail in E as [_ <-]. apply is_diso_spec; [unfold angle_ok; lia|unfold angle_ok; lia|reflexivity]. }
  assert (Hin : In 0 (filter p [45; 0])) by (apply filter_In; split; [cbn; auto|exact Hx]).
  set (ff := filter p _) in *. assert (ff = [45]) as R' by congruence. rewrite R' in Hin. cbn in Hin; intuition discriminate.
Qed.
Print Assumptions C78_asymmetric_parity_refuted.

Theorem C78_asymmetric_contig_refuted :
  ~ (forall c n level bot top child r, sym c = false -> dam_tol c = false -> contig c = true -> diso c = false ->
       (2 <= n_contig c <= 6)%nat -> contig_stack (n_contig c) bot -> contig_stack (n_contig c) top ->
       (* a top ply *)
       (level + length top = n - 1)%nat -> (length bot + length top < n - 1)%nat -> top <> [] ->
       l_pruning c n level [] bot [] top child = Ok r ->
       exactly (fun a => contig_stack (n_contig c) (a :: top)) child r).
Proof.
  intros H.
  assert (B4 : contig_stack 4 [0; 0; 0; 0]) by (apply contig_short; cbn; lia).
  assert (T4 : contig_stack 4 [45; 45; 45; 45]) by (apply contig_short; cbn; lia).
  destruct (H (cons_asym false true) 12%nat 7%nat [0; 0; 0; 0] [45; 45; 45; 45] [0; 45] (Some [45]) eq_refl eq_refl eq_refl eq_refl ltac:(cbn; lia) B4 T4 ltac:(cbn; lia) ltac:(cbn; lia) ltac:(discriminate) eq_refl) as [p [Hp R]].
  destruct R as [[_ R]|[_ R]]; [discriminate|].
  assert (Hin : In 45 (filter p [0; 45])). { set (ff := filter p _) in *. assert (ff = [45]) as R' by congruence. rewrite R'; now left. }
  apply filter_In in Hin as [_ Hx]. apply Hp in Hx; [|cbn; auto]. apply Hx. exists 45, [], []. reflexivity.
Qed.
Print Assumptions C78_asymmetric_contig_refuted.

(** non-vacuous: a second group after the plies 45/0/0, the third 0 in a row is refused with
    n_contig = 2; the innermost ply of 8 plies *)
Example C78_example :
  l_pruning cons_ex 12 3 (simp_bot cons_ex [45; 0; 0]) [] [] [] [-45; 0; 45; 90] = Ok (Some [-45; 45]) /\
  l_pruning cons_ex 8 3 (simp_bot cons_ex [45; 0]) [45] [] [] [-45; 0; 45; 90] = Ok (Some [0; 90]) /\
  l_pruning cons_ex 7 3 (simp_bot cons_ex [45]) [0; 45] [] [] [-45; 0; 45; 90] = Ok (Some [0; 90]) /\
  (contig_stack 2 [45; 0; 45] /\ Forall angle_ok [45; 0; 45] /\ (2 <= length [45; 0; 45])%nat).
Proof. split; [|split; [|split]]; [vm_compute; reflexivity..|]. apply C30_example. Qed.
