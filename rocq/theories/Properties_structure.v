(* Properties_structure.v - C85: the queries of a structure *)
From Verif Require Import Base Uniq Divers DiversProofs Spacing Strip StripProofs StripGraph Structure Properties_strip.
From Coq Require Import Lqa.
Local Open Scope Z_scope.

(** the largest ply count of the panels *)
Definition largest (ps : list panel) (m : Z) : Prop :=
  (exists p, In p ps /\ p_nplies p = m) /\ forall p, In p ps -> p_nplies p <= m.

Lemma fold_max : forall t a, let m := fold_left Z.max t a in In m (a :: t) /\ forall x, In x (a :: t) -> x <= m.
Proof.
  induction t as [|b t IH]; cbn [fold_left]; intros a; [split; [left; auto|]; intros x [->|[]]; lia|].
  destruct (IH (Z.max a b)) as [H1 H2]; cbn zeta in *; set (m := fold_left Z.max t (Z.max a b)) in *; clearbody m; split.
  - destruct H1 as [E|H1]; [|right; right; auto]. destruct (Z.max_spec a b) as [[_ X]|[_ X]]; rewrite X in E; subst; [right; left|left]; auto.
  - intros x [->|[->|H]]; [| |apply H2; right; auto]; specialize (H2 _ (or_introl eq_refl)); lia.
Qed.

Lemma fold_min : forall t a, let m := fold_left Z.min t a in In m (a :: t) /\ forall x, In x (a :: t) -> m <= x.
Proof.
  induction t as [|b t IH]; cbn [fold_left]; intros a; [split; [left; auto|]; intros x [->|[]]; lia|].
  destruct (IH (Z.min a b)) as [H1 H2]; cbn zeta in *; set (m := fold_left Z.min t (Z.min a b)) in *; clearbody m; split.
  - destruct H1 as [E|H1]; [|right; right; auto]. destruct (Z.min_spec a b) as [[_ X]|[_ X]]; rewrite X in E; subst; [left|right; left]; auto.
  - intros x [->|[->|H]]; [| |apply H2; right; auto]; specialize (H2 _ (or_introl eq_refl)); lia.
Qed.

Lemma max_ok ps : ps <> [] -> exists m, n_plies_max ps = Ok m /\ largest ps m.
Proof.
  intros H; unfold n_plies_max, n_plies_of; destruct ps as [|p t]; [congruence|]; cbn [map best_of].
  eexists; split; [reflexivity|]. destruct (fold_max (map p_nplies t) (p_nplies p)) as [H1 H2]; cbn zeta in *.
  change (p_nplies p :: map p_nplies t) with (map p_nplies (p :: t)) in *; split.
  - apply in_map_iff in H1; destruct H1 as [q [E I]]; exists q; auto.
  - intros q I; apply H2, in_map; auto.
Qed.

Lemma largest_unique ps m m' : largest ps m -> largest ps m' -> m = m'.
Proof.
  intros [[p [I E]] H] [[q [J F]] H']; specialize (H _ J); specialize (H' _ I); lia.
Qed.

Lemma indices_of_spec f : forall ps i,
  StronglySorted lt (indices_of f ps i) /\ forall k, In k (indices_of f ps i) <-> exists j p, k = (i + j)%nat /\ nth_error ps j = Some p /\ f p = true.
Proof.
  induction ps as [|p t IH]; intros i; cbn [indices_of].
  - split; [constructor|]; intros k; split; [intros []|]. intros [j [p [_ [E _]]]]; destruct j; discriminate.
  - destruct (IH (S i)) as [H1 H2].
    assert (H3 : forall k, In k (indices_of f t (S i)) -> (i < k)%nat).
    { intros k Hk; apply H2 in Hk; destruct Hk as [j [q [-> _]]]; lia. }
    assert (H4 : forall k, (exists j q, k = (i + j)%nat /\ nth_error (p :: t) j = Some q /\ f q = true) <-> (k = i /\ f p = true) \/ In k (indices_of f t (S i))).
    { intros k; rewrite H2; split.
      - intros [[|j] [q [-> [E F]]]]; cbn in E; [injection E as <-; left; split; [lia|auto]|right; exists j, q; repeat split; auto; lia].
      - intros [[-> F]|[j [q [-> [E F]]]]]; [exists 0%nat, p; repeat split; auto; lia|exists (S j), q; repeat split; auto; lia]. }
    destruct (f p) eqn:E.
    + split; [constructor; auto; apply Forall_forall; auto|]. intros k; rewrite H4; cbn [In]; intuition.
    + split; auto. intros k; rewrite H4. intuition congruence.
Qed.

(** ** C85: the thickest panel that is used is the first of the panels with the largest ply count *)
Theorem C85_one_thickest_panel : forall ps, ps <> [] ->
  exists i p m, identify_one_thickest_panel ps = Ok i /\ nth_error ps i = Some p /\ p_nplies p = m /\ largest ps m /\
    forall j q, nth_error ps j = Some q -> (j < i)%nat -> p_nplies q < m.
Proof.
  intros ps H; destruct (max_ok ps H) as [m [E L]]; unfold identify_one_thickest_panel; rewrite E; cbn [bind].
  destruct (indices_of_spec (fun p => p_nplies p =? m) ps 0) as [S1 S2].
  destruct (indices_of (fun p => p_nplies p =? m) ps 0) as [|i l].
  - destruct L as [[p [I F]] _]; apply In_nth_error in I; destruct I as [j J].
    destruct (proj2 (S2 j)); exists j, p; repeat split; auto; apply Z.eqb_eq; auto.
  - destruct (proj1 (S2 i) (or_introl eq_refl)) as [j [p [-> [J F]]]]; apply Z.eqb_eq in F.
    exists j, p, m; repeat split; auto; [apply L|apply L|].
    intros k q K Hk; pose proof (proj2 L q (nth_error_In _ _ K)).
    enough (p_nplies q <> m) by lia. intros G.
    assert (I : In k (0 + j :: l)%nat) by (apply S2; exists k, q; repeat split; auto; apply Z.eqb_eq; auto).
    destruct I as [I|I]; [lia|]. inversion S1 as [|? ? _ B]; subst. rewrite Forall_forall in B; specialize (B k I); lia.
Qed.
Print Assumptions C85_one_thickest_panel.

(** ** C85: the thickest panels are listed in order, each once; for symmetric laminates with a
    middle ply a panel that lacks only the middle ply counts as one of them *)
Theorem C85_thickest_panels : forall sym ps, ps <> [] ->
  exists l m, identify_thickest_panels sym ps = Ok l /\ largest ps m /\ StronglySorted lt l /\
    forall i, In i l <-> exists p, nth_error ps i = Some p /\ (p_nplies p = m \/ (sym = true /\ Z.odd m = true /\ p_nplies p = m - 1)).
Proof.
  intros sym ps H; destruct (max_ok ps H) as [m [E L]]; unfold identify_thickest_panels; rewrite E; cbn [bind].
  assert (O : (m mod 2 =? 1) = Z.odd m) by (rewrite Zmod_odd; destruct (Z.odd m); reflexivity).
  set (f := if (sym && (m mod 2 =? 1))%bool then (fun p => ((p_nplies p =? m) || (p_nplies p =? m - 1))%bool) else (fun p => p_nplies p =? m)).
  replace (if (sym && (m mod 2 =? 1))%bool then _ else _) with (indices_of f ps 0) by (unfold f; destruct (sym && _)%bool; reflexivity).
  assert (F : forall p, f p = true <-> (p_nplies p = m \/ (sym = true /\ Z.odd m = true /\ p_nplies p = m - 1))).
  { intros p; unfold f; rewrite O; destruct sym, (Z.odd m); cbn [andb]; rewrite ?orb_true_iff, ?Z.eqb_eq; intuition congruence. }
  clearbody f. destruct (indices_of_spec f ps 0) as [S1 S2].
  destruct (indices_of f ps 0) as [|i l] eqn:D.
  - destruct L as [[p [I G]] _]; apply In_nth_error in I; destruct I as [j J].
    destruct (proj2 (S2 j)); exists j, p; repeat split; auto; apply F; auto.
  - exists (i :: l), m; split; [reflexivity|]; split; [exact L|]; split; [exact S1|].
    intros k; rewrite S2; split; [intros [j [p [-> [J G]]]]; exists p; split; auto; apply F; auto|].
    intros [p [J G]]; exists k, p; repeat split; auto; apply F; auto.
Qed.
Print Assumptions C85_thickest_panels.

(** ** C85: bounds of the ply counts, flags of the thickest panels *)
Theorem C85_ply_counts : forall ps, ps <> [] ->
  exists lo hi flags, n_plies_min ps = Ok lo /\ n_plies_max ps = Ok hi /\ is_thick_panels ps = Ok flags /\ largest ps hi /\
    (exists p, In p ps /\ p_nplies p = lo) /\ (forall p, In p ps -> lo <= p_nplies p) /\
    length flags = length ps /\ (forall i p, nth_error ps i = Some p -> (nth_error flags i = Some true <-> p_nplies p = hi)).
Proof.
  intros ps H; destruct (max_ok ps H) as [m [E L]].
  unfold is_thick_panels; rewrite E; cbn [bind]; unfold n_plies_min, n_plies_of.
  destruct ps as [|p t]; [congruence|]; cbn [map best_of].
  eexists _, m, _; split; [reflexivity|]; split; [reflexivity|]; split; [reflexivity|]; split; [exact L|].
  destruct (fold_min (map p_nplies t) (p_nplies p)) as [H1 H2]; cbn zeta in *.
  change (p_nplies p :: map p_nplies t) with (map p_nplies (p :: t)) in *.
  split; [apply in_map_iff in H1; destruct H1 as [q [F I]]; exists q; auto|].
  split; [intros q I; apply H2, in_map; auto|].
  change ((p_nplies p =? m) :: map (fun p0 => p_nplies p0 =? m) t) with (map (fun p0 => p_nplies p0 =? m) (p :: t)).
  split; [apply map_length|].
  intros i q J; rewrite (map_nth_error (fun p0 => p_nplies p0 =? m) i (p :: t) J), <- Z.eqb_eq. split; [intros X; injection X; auto|intros ->; auto].
Qed.
Print Assumptions C85_ply_counts.

(** ** C85: middle plies. A middle ply is recorded exactly in the symmetric panels with an odd
    ply count, at the position with as many plies before as after *)
Theorem C85_middle_plies : forall sym ps, ps <> [] -> (forall p, In p ps -> 1 <= p_nplies p) ->
  exists indices has thick m, has_a_middle_ply sym ps = Ok (indices, has, thick) /\ largest ps m /\ length indices = length ps /\
    (forall i p, nth_error ps i = Some p -> exists k, nth_error indices i = Some k /\
       if (sym && Z.odd (p_nplies p))%bool then k - 1 = p_nplies p - k else k = 0) /\
    (has = true <-> sym = true /\ exists p, In p ps /\ Z.odd (p_nplies p) = true) /\
    (thick = true <-> sym = true /\ Z.odd m = true).
Proof.
  intros sym ps H P; destruct (max_ok ps H) as [m [E L]]; unfold has_a_middle_ply; rewrite E; cbn [bind].
  eexists _, _, _, m; split; [reflexivity|]; split; [exact L|].
  assert (O : forall n, (n mod 2 =? 1) = Z.odd n) by (intros n; rewrite Zmod_odd; destruct (Z.odd n); reflexivity).
  assert (V : forall n, 1 <= n -> if (sym && Z.odd n)%bool then 0 < middle_ply_index sym n /\ middle_ply_index sym n - 1 = n - middle_ply_index sym n else middle_ply_index sym n = 0).
  { intros n Hn; unfold middle_ply_index; rewrite O. destruct (sym && Z.odd n)%bool eqn:D; auto.
    apply andb_true_iff in D; destruct D as [_ D]; rewrite Z.odd_spec in D; destruct D as [q ->].
    replace (2 * q + 1 + 1) with ((q + 1) * 2) by lia. rewrite Z.div_mul by lia. lia. }
  assert (Sm : (sumZ (map (fun p => middle_ply_index sym (p_nplies p)) ps) =? 0) = false <-> sym = true /\ exists p, In p ps /\ Z.odd (p_nplies p) = true).
  { rewrite Z.eqb_neq. clear L E H. induction ps as [|p t IH]; cbn [map].
    - change (sumZ []) with 0. split; [congruence|]. intros [_ [q [[] _]]].
    - change (sumZ (?a :: ?l)) with (a + sumZ l).
      assert (NN : 0 <= sumZ (map (fun p0 => middle_ply_index sym (p_nplies p0)) t)).
      { clear IH. assert (Pt : forall q, In q t -> 1 <= p_nplies q) by (intros; apply P; right; auto). clear P.
        induction t as [|q t IH]; cbn [map]; [cbn; lia|]. change (sumZ (?a :: ?l)) with (a + sumZ l).
        specialize (V (p_nplies q) (Pt q (or_introl eq_refl))). specialize (IH (fun x Hx => Pt x (or_intror Hx))).
        destruct (sym && Z.odd (p_nplies q))%bool; lia. }
      specialize (IH (fun x Hx => P x (or_intror Hx))). specialize (V (p_nplies p) (P p (or_introl eq_refl))).
      destruct (sym && Z.odd (p_nplies p))%bool eqn:D.
      + apply andb_true_iff in D; destruct D as [D1 D2]. split; [intros _; split; auto; exists p; split; auto; left; auto|lia].
      + rewrite V. rewrite Z.add_0_l, IH. split; intros [A [q [I F]]]; split; auto; exists q; split; auto; [right; auto|].
        destruct I as [->|I]; auto. rewrite A, F in D; discriminate. }
  split; [apply map_length|]. split.
  - intros i p J; eexists; split; [apply map_nth_error; exact J|].
    specialize (V (p_nplies p) (P p (nth_error_In _ _ J))). destruct (sym && Z.odd (p_nplies p))%bool; tauto.
  - split.
    + rewrite negb_true_iff. exact Sm.
    + rewrite andb_true_iff, negb_true_iff, Sm. assert (M2 : negb (m mod 2 =? 0) = Z.odd m) by (rewrite Zmod_odd; destruct (Z.odd m); reflexivity).
      rewrite M2. split; [tauto|]. intros [A B]; repeat split; auto. destruct L as [[p [I F]] _]; exists p; subst; auto.
Qed.
Print Assumptions C85_middle_plies.

(** ** C85: the neighbours of each panel *)
Definition next_to (i : nat) (b : nat * nat) : list nat :=
  (if Nat.eqb (fst b) i then [snd b] else []) ++ (if Nat.eqb (snd b) i then [fst b] else []).

Lemma append_ok l i x : (i < length l)%nat ->
  exists l', append_at l i x = Ok l' /\ length l' = length l /\ forall k, nth k l' [] = nth k l [] ++ (if Nat.eqb i k then [x] else []).
Proof.
  intros H; unfold append_at; rewrite (get_ok l i [] H); cbn [bind]. eexists; split; [reflexivity|]. split; [apply upd_length|].
  intros k; rewrite nth_upd. destruct (Nat.eqb_spec i k) as [->|N]; cbn [andb].
  - apply Nat.ltb_lt in H; rewrite H; reflexivity.
  - rewrite app_nil_r; reflexivity.
Qed.

Lemma neighbour_lists_ok : forall bs l, (forall a b, In (a, b) bs -> (a < length l /\ b < length l)%nat) ->
  exists l', neighbour_lists bs l = Ok l' /\ length l' = length l /\ forall k, nth k l' [] = nth k l [] ++ flat_map (next_to k) bs.
Proof.
  induction bs as [|[a b] t IH]; intros l H; cbn [neighbour_lists flat_map].
  - exists l; repeat split; auto. intros k; rewrite app_nil_r; auto.
  - destruct (H a b (or_introl eq_refl)) as [Ha Hb].
    destruct (append_ok l a b Ha) as [l1 [E1 [L1 N1]]]; rewrite E1; cbn [bind].
    destruct (append_ok l1 b a ltac:(lia)) as [l2 [E2 [L2 N2]]]; rewrite E2; cbn [bind].
    destruct (IH l2) as [l3 [E3 [L3 N3]]]. { intros x y I; specialize (H x y (or_intror I)); lia. }
    exists l3; split; [exact E3|]; split; [lia|]. intros k; rewrite N3, N2, N1. unfold next_to; cbn [fst snd]. rewrite !app_assoc; reflexivity.
Qed.

Lemma neighbours_sym ps i j : neighbours ps i j -> neighbours ps j i.
Proof. intros [p [q [A [B C]]]]; exists q, p; tauto. Qed.
Lemma neighbours_lt ps i j : neighbours ps i j -> (i < length ps /\ j < length ps)%nat.
Proof. intros [p [q [A [B _]]]]; split; apply nth_error_Some; congruence. Qed.

Lemma next_sorted i : forall bs, StronglySorted plt bs -> (forall a b, In (a, b) bs -> (a <= b)%nat) -> ~ In (i, i) bs -> StronglySorted lt (flat_map (next_to i) bs).
Proof.
  induction 1 as [|[a b] t Ht IH Hf]; intros Hle Hi; cbn [flat_map]; [constructor|].
  assert (IH' : StronglySorted lt (flat_map (next_to i) t)) by (apply IH; [intros; apply Hle; right; auto|intros X; apply Hi; right; auto]).
  clear IH. rewrite Forall_forall in Hf.
  assert (Hab : (a <= b)%nat) by (apply Hle; left; auto).
  assert (T : forall y, In y (flat_map (next_to i) t) -> exists c d, In (c, d) t /\ ((c = i /\ y = d) \/ (d = i /\ y = c))).
  { intros y Hy; apply in_flat_map in Hy; destruct Hy as [[c d] [Hcd Hy]]; exists c, d; split; auto.
    unfold next_to in Hy; cbn [fst snd] in Hy; apply in_app_or in Hy; destruct Hy as [Hy|Hy].
    - destruct (Nat.eqb_spec c i); [|destruct Hy]; destruct Hy as [<-|[]]; left; auto.
    - destruct (Nat.eqb_spec d i); [|destruct Hy]; destruct Hy as [<-|[]]; right; auto. }
  unfold next_to at 1; cbn [fst snd].
  destruct (Nat.eqb_spec a i) as [->|Na], (Nat.eqb_spec b i) as [->|Nb]; cbn [app]; auto.
  - exfalso; apply Hi; left; auto.
  - constructor; auto. apply Forall_forall; intros y Hy; destruct (T y Hy) as [c [d [I D]]].
    pose proof (Hf _ I) as Q; pose proof (Hle c d (or_intror I)); unfold plt in Q; cbn [fst snd] in Q.
    assert (c <> i \/ d <> i) by (destruct (Nat.eq_dec c i), (Nat.eq_dec d i); auto; subst; exfalso; apply Hi; right; auto).
    destruct D as [[-> ->]|[-> ->]]; lia.
  - constructor; auto. apply Forall_forall; intros y Hy; destruct (T y Hy) as [c [d [I D]]].
    pose proof (Hf _ I) as Q; pose proof (Hle c d (or_intror I)); unfold plt in Q; cbn [fst snd] in Q.
    assert (c <> i \/ d <> i) by (destruct (Nat.eq_dec c i), (Nat.eq_dec d i); auto; subst; exfalso; apply Hi; right; auto).
    destruct D as [[-> ->]|[-> ->]]; lia.
Qed.

Theorem C85_neighbour_panels : forall pop ps bs, mp_boundaries pop ps = Ok bs ->
  exists ls, identify_neighbour_panels (length ps) bs = Ok ls /\ length ls = length ps /\
    forall i, (i < length ps)%nat ->
      (forall j, In j (nth i ls []) <-> neighbours ps i j) /\
      (~ neighbours ps i i -> StronglySorted lt (nth i ls [])).
Proof.
  intros pop ps bs E.
  destruct (proj1 (mp_boundaries_iff pop ps) (ex_intro _ bs E)) as [H1 [H2 [H3 H4]]].
  destruct (mp_boundaries_ok pop ps H1 H2 H3 H4) as [bs' [E' [So Hb]]].
  rewrite E in E'; injection E' as <-.
  unfold identify_neighbour_panels.
  destruct (neighbour_lists_ok bs (repeat [] (length ps))) as [ls [El [Ll N]]].
  { intros a b I; apply Hb in I; destruct I as [_ I]; rewrite repeat_length; eapply neighbours_lt; eauto. }
  exists ls; split; [exact El|]; split; [rewrite Ll; apply repeat_length|].
  intros i Hi. assert (Ni : nth i ls [] = flat_map (next_to i) bs).
  { rewrite N. rewrite (nth_repeat ([] : list nat) (length ps) i). reflexivity. }
  rewrite Ni; split.
  - intros j; rewrite in_flat_map; split.
    + intros [[a b] [I J]]; unfold next_to in J; cbn [fst snd] in J; apply Hb in I; destruct I as [_ I].
      apply in_app_or in J; destruct J as [J|J].
      * destruct (Nat.eqb_spec a i) as [->|]; [|destruct J]; destruct J as [<-|[]]; auto.
      * destruct (Nat.eqb_spec b i) as [->|]; [|destruct J]; destruct J as [<-|[]]; apply neighbours_sym; auto.
    + intros I; destruct (Nat.le_gt_cases i j) as [L|L].
      * exists (i, j); split; [apply Hb; split; auto|]. unfold next_to; cbn [fst snd]; rewrite Nat.eqb_refl; left; auto.
      * exists (j, i); split; [apply Hb; split; [lia|apply neighbours_sym; auto]|]. unfold next_to; cbn [fst snd]; rewrite Nat.eqb_refl; apply in_or_app; right; left; auto.
  - intros NI; apply next_sorted; auto; [intros a b I; apply Hb in I; tauto|]. intros I; apply Hb in I; tauto.
Qed.
Print Assumptions C85_neighbour_panels.

(** a panel that names itself is accepted and is twice in its own list *)
Theorem C85_own_neighbour_refuted : ~ (forall pop ps bs ls i, mp_boundaries pop ps = Ok bs -> identify_neighbour_panels (length ps) bs = Ok ls -> NoDup (nth i ls [])).
Proof.
  intros H.
  specialize (H (fun _ => 0%nat) [mkp 1 8 [1; 2] 1; mkp 2 8 [] 1] [(0, 0); (0, 1)]%nat [[0; 0; 1]; [0]]%nat 0%nat eq_refl eq_refl).
  inversion H as [|? ? X _]; apply X; left; auto.
Qed.
Print Assumptions C85_own_neighbour_refuted.

(** ** C85: a symmetric structure is mapped to a blending strip only if every panel thicker than
    a panel with a middle ply has a middle ply too *)
Lemma middle_check_iff : forall l seen, StronglySorted Z.lt l ->
  (middle_check seen l = Ok tt <-> (seen = true -> forall n, In n l -> Z.odd n = true) /\ forall n n', In n l -> In n' l -> n < n' -> Z.odd n = true -> Z.odd n' = true).
Proof.
  induction l as [|a t IH]; intros seen So; cbn [middle_check].
  - split; [intros _|auto]; split; [intros _ n []|intros n n' []].
  - inversion So as [|? ? St Fa]; subst; rewrite Forall_forall in Fa.
    rewrite <- Z.negb_odd. destruct (seen && negb (Z.odd a))%bool eqn:D.
    + split; [discriminate|]. intros [A _]. apply andb_true_iff in D; destruct D as [D1 D2]; apply negb_true_iff in D2.
      rewrite (A D1 a (or_introl eq_refl)) in D2; discriminate.
    + rewrite (IH _ St). split.
      * intros [A B]; split.
        -- intros -> n [->|I]; [cbn in D; destruct (Z.odd n); auto; discriminate|]. apply A; auto.
        -- intros n n' I J Hn On. destruct I as [E|I], J as [F|J]; subst; [lia| | |apply (B n n'); auto].
           ++ apply A; auto; rewrite On; apply orb_true_r.
           ++ specialize (Fa n I); lia.
      * intros [A B]; split.
        -- intros S1 n I. destruct seen; [apply A; auto; right; auto|]. cbn [orb] in S1. apply (B a n); auto; [left; auto|right; auto].
        -- intros n n' I J; apply B; right; auto.
Qed.

Theorem C85_middle_compatibility : forall ps,
  middle_check false (strip_plies ps) = Ok tt <->
  forall p q, In p ps -> In q ps -> p_nplies p < p_nplies q -> Z.odd (p_nplies p) = true -> Z.odd (p_nplies q) = true.
Proof.
  intros ps; rewrite (middle_check_iff _ false (strip_sorted ps)). split.
  - intros [_ H] p q I J; apply H; apply strip_in; eauto.
  - intros H; split; [discriminate|]. intros n n' I J; apply strip_in in I; apply strip_in in J.
    destruct I as [p [I <-]], J as [q [J <-]]. exact (H p q I J).
Qed.
Print Assumptions C85_middle_compatibility.

(** ** C85: areas are sums over panels *)
Theorem C85_areas : forall ps qs, (area (ps ++ qs) == area ps + area qs)%Q /\ (area_patches (ps ++ qs) == area_patches ps + area_patches qs)%Q /\
  (forall p, area [p] == p_area p)%Q /\ (forall p, area_patches [p] == p_area p * inject_Z (p_nplies p))%Q /\
  (forall density, calc_weight ps density == density * area_patches ps)%Q.
Proof.
  intros ps qs; unfold area, area_patches, calc_weight; rewrite !map_app.
  repeat split; intros; try (rewrite sumQ_app; reflexivity); try (cbn [map]; change (sumQ [?a]) with (a + 0)%Q; ring); reflexivity.
Qed.
Print Assumptions C85_areas.

(** LAYLA is recommended for a single panel *)
Theorem C85_layla_recommended : forall ps, layla_recommended ps = true <-> exists p, ps = [p].
Proof.
  intros ps; unfold layla_recommended; rewrite Nat.eqb_eq; split; [|intros [p ->]; auto].
  destruct ps as [|p [|q t]]; cbn; try lia. intros _; exists p; auto.
Qed.
Print Assumptions C85_layla_recommended.

Example C85_example :
  identify_one_thickest_panel demo = Ok 2%nat /\ identify_thickest_panels true [mkp 1 12 [] 1; mkp 2 13 [] 1; mkp 3 11 [] 1] = Ok [0; 1]%nat /\
  identify_thickest_panels false [mkp 1 12 [] 1; mkp 2 13 [] 1; mkp 3 11 [] 1] = Ok [1]%nat /\
  has_a_middle_ply true [mkp 1 12 [] 1; mkp 2 13 [] 1] = Ok ([0; 7], true, true) /\
  has_a_middle_ply true [mkp 1 13 [] 1; mkp 2 14 [] 1] = Ok ([7; 0], true, false) /\
  middle_check false (strip_plies [mkp 1 13 [] 1; mkp 2 14 [] 1]) = Err (Raised BadDefinition) /\
  identify_neighbour_panels 4 demo_bs = Ok [[1; 2]; [0; 3]; [0; 3]; [1; 2]]%nat.
Proof. vm_compute; repeat split. Qed.
Example C85_example_hypotheses : demo <> [] /\ (forall p, In p demo -> 1 <= p_nplies p) /\ (exists bs, mp_boundaries (fun _ => 0%nat) demo = Ok bs).
Proof. repeat split; [discriminate| |eexists; vm_compute; reflexivity]. intros p H; cbn in H; decompose [or] H; subst; cbn; lia || tauto. Qed.
