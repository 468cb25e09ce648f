(* PruningProofs.v - what the pruning keeps. *)
From Verif Require Import Base Constraints Guidelines SpecGuidelines GuidelinesProofs PdlTools PdlToolsProofs
  GroupFilters GroupFiltersProofs Pruning.
Local Open Scope Z_scope.

Lemma block_inside n p X q i :
  (length p <= i)%nat -> (i + n < length p + length X)%nat ->
  (forall k, (k <= n)%nat -> nth (i + k) (p ++ X ++ q) 0 = nth i (p ++ X ++ q) 0) -> has_block (S n) X.
Proof.
  intros H1 H2 H; apply has_block_nth; exists (i - length p)%nat; split; [lia|].
  intros k Hk; specialize (H k Hk).
  rewrite !(app_nth2 p) in H by lia. rewrite !(app_nth1 X) in H by lia.
  replace (i - length p + k)%nat with (i + k - length p)%nat by lia; exact H.
Qed.
Lemma has_block_within n p X q : has_block n X -> has_block n (p ++ X ++ q).
Proof.
  intros [a [l1 [l2 ->]]]; exists a, (p ++ l1), (l2 ++ q). rewrite <- !app_assoc; reflexivity.
Qed.
Lemma has_block_rev n X : has_block n X -> has_block n (rev X).
Proof.
  intros [a [l1 [l2 ->]]]; exists a, (rev l2), (rev l1). rewrite !rev_app_distr, <- app_assoc. do 2 f_equal.
  clear; induction n; cbn; auto. rewrite IHn. clear; induction n; cbn; congruence.
Qed.
Lemma contig_rev n X : contig_stack n X -> contig_stack n (rev X).
Proof. intros H B; apply has_block_rev in B; rewrite rev_involutive in B; exact (H B). Qed.
Lemma contig_prefix n l m : contig_stack n (l ++ m) -> contig_stack n l.
Proof. intros H B; apply H; apply (has_block_within _ [] l m) in B; exact B. Qed.
Lemma contig_suffix n l m : contig_stack n (l ++ m) -> contig_stack n m.
Proof. intros H B; apply H. apply (has_block_within _ l m []) in B. rewrite app_nil_r in B; exact B. Qed.

Lemma contig_snoc n b a : (1 <= n)%nat -> contig_stack n b -> (contig_stack n (b ++ [a]) <-> ~ astride n b [a]).
Proof.
  intros Hn Hb; split.
  - intros H [x [l1 [l2 [E _]]]]; apply H; exists x, l1, l2; exact E.
  - intros H [x [l1 [l2 E]]]; destruct l2 as [|z l2 _] using rev_ind.
    + apply H; exists x, l1, []; split; [exact E|].
      apply (f_equal (@length Z)) in E. rewrite !app_length, repeat_length in E; cbn in E. lia.
    + rewrite !app_assoc in E; apply app_inj_tail in E; destruct E as [-> _].
      apply Hb; exists x, l1, l2; rewrite <- app_assoc; reflexivity.
Qed.

Lemma contig_mirror n b0 before mid :
  (length before = n \/ b0 = []) -> contig_stack n (b0 ++ before) ->
  (contig_stack n (before ++ mid ++ rev before) <-> contig_stack n ((b0 ++ before) ++ mid ++ rev (b0 ++ before))).
Proof.
  intros [L| ->] Hb; [|reflexivity]. rewrite rev_app_distr.
  replace ((b0 ++ before) ++ mid ++ rev before ++ rev b0) with (b0 ++ (before ++ mid ++ rev before) ++ rev b0)
    by (rewrite <- !app_assoc; reflexivity).
  split; intros H B.
  - apply has_block_nth in B; destruct B as [i [Hi Hk]].
    rewrite !app_length, !rev_length in Hi.
    destruct (Nat.lt_ge_cases (i + n) (length b0 + length before)) as [C1|C1].
    { apply Hb. replace (b0 ++ (before ++ mid ++ rev before) ++ rev b0) with ([] ++ (b0 ++ before) ++ (mid ++ rev before ++ rev b0)) in Hk
        by (rewrite <- !app_assoc; reflexivity).
      apply (block_inside n [] (b0 ++ before) (mid ++ rev before ++ rev b0) i); [cbn; lia|rewrite app_length; cbn; lia|exact Hk]. }
    destruct (Nat.lt_ge_cases i (length b0 + length before + length mid)) as [C2|C2].
    { apply H. apply (block_inside n b0 (before ++ mid ++ rev before) (rev b0) i); [lia|rewrite !app_length, rev_length; lia|exact Hk]. }
    apply (contig_rev _ _ Hb). rewrite rev_app_distr.
    replace (b0 ++ (before ++ mid ++ rev before) ++ rev b0) with ((b0 ++ before ++ mid) ++ (rev before ++ rev b0) ++ []) in Hk
      by (rewrite <- !app_assoc, app_nil_r; reflexivity).
    apply (block_inside n (b0 ++ before ++ mid) (rev before ++ rev b0) [] i); [rewrite !app_length; lia| |exact Hk].
    rewrite !app_length, !rev_length; lia.
  - apply H, has_block_within, B.
Qed.

(** the test of external_contig for one angle *)
Lemma external_one c bot a : contig c = true -> (2 <= n_contig c <= 6)%nat -> contig_stack (n_contig c) bot ->
  exists t, (do out <- external_contig c 1 1 bot [[a]] None; Ok (match fst out with [] => false | _ => true end)) = Ok t /\
    (t = true <-> contig_stack (n_contig c) (bot ++ [a])).
Proof.
  intros Hc Hn Hb. unfold external_contig, guard; cbn [Nat.ltb Nat.leb bind].
  destruct (ext_contig_part_spec false c 1 bot (([[a]] : rows), None)) as [p [E Hp]]; auto; [discriminate| |].
  { cbn [fst]; intros r [<-|[]]; cbn; lia. }
  rewrite E; cbn [bind filtered fst filter]. eexists; split; [reflexivity|].
  specialize (Hp [a] ltac:(cbn; lia)). cbn [firstn] in Hp.
  rewrite contig_snoc by (auto; lia).
  destruct (p [a]); split; intros H; try discriminate; try reflexivity.
  - apply Hp; auto.
  - apply Hp; intros _; exact H.
Qed.

Lemma py_from_lastn s n (l : list Z) : s = zlen l - Z.of_nat n -> (n <= length l)%nat -> py_from s l = lastn n l.
Proof.
  intros -> H; unfold py_from, lastn, zlen. destruct (Z.ltb_spec (Z.of_nat (length l) - Z.of_nat n) 0); [lia|].
  f_equal; lia.
Qed.
Lemma py_from_all s n (l : list Z) : s = zlen l - Z.of_nat n -> (2 * length l <= n)%nat -> py_from s l = l.
Proof.
  intros -> H; unfold py_from, zlen. destruct l as [|x l].
  - apply skipn_nil.
  - cbn [length] in *. destruct (Z.ltb_spec (Z.of_nat (S (length l)) - Z.of_nat n) 0); [|lia].
    replace (Z.to_nat _) with 0%nat by lia; reflexivity.
Qed.

Lemma lastn_split {A} n (l : list A) : (n <= length l)%nat -> exists l0, l = l0 ++ lastn n l /\ length (lastn n l) = n.
Proof.
  intros H; exists (firstn (length l - n) l); unfold lastn; rewrite firstn_skipn, skipn_length; split; auto; lia.
Qed.

(** the full symmetric laminate around the innermost angle *)
Definition mirrored (has_middle : bool) (bot : list Z) (a : Z) : list Z :=
  bot ++ (if has_middle then [a] else [a; a]) ++ rev bot.

Lemma last_one c bot (has_middle : bool) (a : Z) : contig c = true -> (2 <= n_contig c <= 6)%nat -> contig_stack (n_contig c) bot ->
  (n_contig c <= length bot \/ 2 * length bot <= n_contig c)%nat ->
  exists t, (let before := py_from (zlen bot - Z.of_nat (n_contig c)) bot in
             internal_contig2 (before ++ (if has_middle then [a] else [a; a]) ++ rev before) c) = Ok t /\
    (t = true <-> contig_stack (n_contig c) (mirrored has_middle bot a)).
Proof.
  intros Hc Hn Hb HL; cbv zeta. destruct (internal_contig2_spec c (py_from (zlen bot - Z.of_nat (n_contig c)) bot ++
    (if has_middle then [a] else [a; a]) ++ rev (py_from (zlen bot - Z.of_nat (n_contig c)) bot)) Hc Hn) as [t [E Ht]].
  exists t; split; [exact E|]. rewrite Ht; clear E Ht t. unfold mirrored.
  destruct HL as [HL|HL].
  - rewrite (py_from_lastn _ (n_contig c)) by auto.
    destruct (lastn_split (n_contig c) bot HL) as [b0 [E El]].
    rewrite E at 3 4. apply contig_mirror; [left; exact El|rewrite <- E; exact Hb].
  - rewrite (py_from_all _ (n_contig c)) by auto; reflexivity.
Qed.

(** a result that keeps exactly the good angles *)
Definition keeps (good : Z -> Prop) (cands : list Z) (r : option (list Z)) : Prop :=
  exists p : Z -> bool, (forall a, In a cands -> (p a = true <-> good a)) /\ r = none_if_empty (filter p cands).

Lemma filterR_keeps (f : Z -> result bool) (good : Z -> Prop) l :
  (forall a, In a l -> exists t, f a = Ok t /\ (t = true <-> good a)) ->
  exists p, filterR f l = Ok (filter p l) /\ forall a, In a l -> (p a = true <-> good a).
Proof.
  intros H; exists (fun a => match f a with Ok t => t | Err _ => false end); split.
  - apply filterR_ok; intros a Ha; destruct (H a Ha) as [t [-> _]]; reflexivity.
  - intros a Ha; destruct (H a Ha) as [t [-> Ht]]; exact Ht.
Qed.

Lemma is45_spec a : is45 a = true <-> pm45 a.
Proof. unfold is45, pm45; rewrite orb_true_iff, !Z.eqb_eq; reflexivity. Qed.

(** conditions of the disorientation and contiguity parts for a symmetric laminate *)
Definition diso_good (c : cons) (bot : list Z) (a : Z) : Prop :=
  diso c = true -> forall b0 y, bot = b0 ++ [y] -> diso_ok (delta_angle c) y a.
Definition contig_good (c : cons) (last has_middle : bool) (bot : list Z) (a : Z) : Prop :=
  contig c = true -> contig_stack (n_contig c) (if last then mirrored has_middle bot a else bot ++ [a]).

Lemma prune_diso_sym c last level bot top child : sym c = true -> Forall angle_ok bot -> Forall angle_ok child ->
  exists p, prune_diso c last level bot top child = Ok (filter p child) /\
    forall a, In a child -> (p a = true <-> diso_good c bot a).
Proof.
  intros Hs Hb Hc; unfold prune_diso, diso_good. destruct (diso c).
  2:{ exists (fun _ => true); rewrite filter_true'; split; [reflexivity|]; intros; split; [discriminate|auto]. }
  rewrite Hs; cbn [orb negb andb].
  destruct bot as [|y b0 _] using rev_ind.
  - cbn. exists (fun _ => true); rewrite filter_true'; split; [reflexivity|]; intros; split; auto.
    intros _ _ b0 y E; destruct b0; discriminate.
  - rewrite py_get_last. eexists; split; [reflexivity|]; intros a Ha; cbv beta.
    rewrite is_diso_comm, is_diso_spec.
    + split; [intros H _ b1 y1 E; apply app_inj_tail in E; destruct E as [_ <-]; exact H|intros H; exact (H eq_refl b0 y eq_refl)].
    + rewrite Forall_forall in Hb; apply Hb, in_or_app; right; now left.
    + rewrite Forall_forall in Hc; auto.
Qed.

Lemma prune_contig_sym c last has_middle level bot child : sym c = true ->
  (contig c = true -> (2 <= n_contig c <= 6)%nat /\ contig_stack (n_contig c) bot) ->
  (contig c = true -> last = true -> (n_contig c <= length bot \/ 2 * length bot <= n_contig c)%nat) ->
  exists p, prune_contig c last has_middle level bot child = Ok (filter p child) /\
    forall a, In a child -> (p a = true <-> contig_good c last has_middle bot a).
Proof.
  intros Hs Hn HL; unfold prune_contig, contig_good. destruct (contig c) eqn:Ec.
  2:{ exists (fun _ => true); rewrite filter_true'; split; [reflexivity|]; intros; split; [discriminate|auto]. }
  specialize (HL eq_refl). destruct (Hn eq_refl) as [H1 H2]. destruct last; cbn [negb].
  - rewrite Hs. apply filterR_keeps; intros a Ha.
    destruct (last_one c bot has_middle a Ec H1 H2 (HL eq_refl)) as [t [E Ht]]; exists t; split; [exact E|].
    rewrite Ht; split; auto.
  - rewrite Hs; cbn [orb]. apply filterR_keeps; intros a Ha.
    destruct (external_one c bot a Ec H1 H2) as [t [E Ht]]; exists t; split; [exact E|]. rewrite Ht; split; auto.
Qed.

Lemma keeps_ext (g h : Z -> Prop) l r : (forall a, In a l -> (g a <-> h a)) -> keeps g l r -> keeps h l r.
Proof. intros H [p [Hp E]]; exists p; split; auto; intros a Ha; rewrite Hp by exact Ha; auto. Qed.

Definition candidates (c : cons) (n level : nat) (has_middle : bool) (child : list Z) : list Z :=
  if (sym c && Nat.eqb (S level) n && has_middle)%bool then [0; 90] else child.

(** the general part: no early return *)
Lemma pruning_general c n level has_middle bot top child : sym c = true ->
  (contig c = true -> (2 <= n_contig c <= 6)%nat /\ contig_stack (n_contig c) bot) ->
  (contig c = true -> S level = n -> (n_contig c <= length bot \/ 2 * length bot <= n_contig c)%nat) ->
  Forall angle_ok bot -> Forall angle_ok child -> child <> [] ->
  (dam_tol c = true -> level <> 0%nat /\ ((dam_tol_rule c = 2 \/ dam_tol_rule c = 3)%nat -> level <> 1%nat)) ->
  exists r, pruning c n level has_middle bot top child = Ok r /\
    keeps (fun a => diso_good c bot a /\ contig_good c (Nat.eqb (S level) n) has_middle bot a) (candidates c n level has_middle child) r.
Proof.
  intros Hs Hn HL Hb Hch Hne Hd; unfold pruning. fold (candidates c n level has_middle child).
  set (cands := candidates c n level has_middle child).
  set (rule23 := (dam_tol c && (Nat.eqb (dam_tol_rule c) 2 || Nat.eqb (dam_tol_rule c) 3))%bool).
  assert (E1 : (dam_tol c && (Nat.eqb level 0 || (negb (sym c) && Nat.eqb (S level) n)))%bool = false).
  { rewrite Hs; cbn [negb andb orb]. destruct (dam_tol c); [|reflexivity]. cbn [andb]. destruct (Hd eq_refl) as [H _].
    destruct (Nat.eqb_spec level 0); [contradiction|reflexivity]. }
  assert (E2 : (rule23 && Nat.eqb level 1)%bool = false).
  { unfold rule23; destruct (dam_tol c); [|reflexivity]; cbn [andb]. destruct (Hd eq_refl) as [_ H].
    destruct (Nat.eqb_spec level 1) as [->|]; [|apply andb_false_r].
    destruct (Nat.eqb_spec (dam_tol_rule c) 2); [exfalso; apply H; auto|].
    destruct (Nat.eqb_spec (dam_tol_rule c) 3); [exfalso; apply H; auto|]. reflexivity. }
  rewrite E1, E2. rewrite Hs; cbn [negb]; rewrite andb_false_r.
  assert (Hc' : Forall angle_ok cands).
  { unfold cands, candidates; destruct (_ && has_middle)%bool; [|exact Hch].
    repeat constructor; unfold angle_ok; lia. }
  assert (Hne' : cands <> []) by (unfold cands, candidates; destruct (_ && has_middle)%bool; [discriminate|exact Hne]).
  destruct (prune_diso_sym c (Nat.eqb (S level) n) level bot top cands Hs Hb Hc') as [p [-> Hp]]; cbn [bind].
  destruct (prune_contig_sym c (Nat.eqb (S level) n) has_middle level bot (filter p cands) Hs Hn) as [q [Eq Hq]].
  { intros H1 H2; apply Nat.eqb_eq in H2; auto. }
  assert (K : forall a, In a cands -> ((p a && q a)%bool = true <-> diso_good c bot a /\ contig_good c (Nat.eqb (S level) n) has_middle bot a)).
  { intros a Ha; rewrite andb_true_iff, (Hp a Ha). split; intros [H1 H2]; split; auto; apply Hq; auto; apply filter_In; split; auto; apply Hp; auto. }
  destruct (filter p cands) as [|x l] eqn:Ef.
  - destruct (diso c) eqn:Ed; cbn [andb].
    + eexists; split; [reflexivity|]. exists (fun a => p a && q a)%bool; split; [exact K|].
      rewrite <- filter_and, Ef; reflexivity.
    + exfalso. destruct cands as [|x cands]; [congruence|]. cbn in Ef.
      assert (p x = true) as Hx. { apply Hp; [now left|]. unfold diso_good; rewrite Ed; discriminate. }
      rewrite Hx in Ef; discriminate.
  - rewrite andb_false_r, Eq; cbn [bind].
    destruct (contig c && match filter q (x :: l) with [] => true | _ => false end)%bool eqn:F.
    + eexists; split; [reflexivity|]. exists (fun a => p a && q a)%bool; split; [exact K|].
      rewrite <- filter_and, Ef. destruct (filter q (x :: l)); [reflexivity|]. rewrite andb_false_r in F; discriminate.
    + eexists; split; [reflexivity|]. exists (fun a => p a && q a)%bool; split; [exact K|].
      rewrite <- filter_and, Ef. destruct (filter q (x :: l)) as [|z m] eqn:G; [|reflexivity].
      exfalso. rewrite andb_true_r in F. cbn in G.
      assert (q x = true) as Hx. { apply Hq; [now left|]. unfold contig_good; rewrite F; discriminate. }
      rewrite Hx in G; discriminate.
Qed.
