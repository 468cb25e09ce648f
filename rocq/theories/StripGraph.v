(* StripGraph.v - lemmas about the boundary graph, boundary weights and panel
   weightings of Strip.v *)
From Verif Require Import Base Uniq Divers DiversProofs Spacing SpacingProofs Strip StripProofs.
From Coq Require Import Lqa ListDec.

(* ------------------------------------------------------------------ *)
(** * Specification *)

(** panels i and j are neighbours: one of them lists the ID of the other *)
Definition neighbours (ps : list panel) (i j : nat) : Prop :=
  exists p q, nth_error ps i = Some p /\ nth_error ps j = Some q /\
    (In (p_ID q) (p_neigh p) \/ In (p_ID p) (p_neigh q)).

Inductive reachable (ps : list panel) : nat -> Prop :=
| reach_start : reachable ps 0
| reach_next i j : reachable ps i -> neighbours ps i j -> reachable ps j.

Definition distinct_ids (ps : list panel) : Prop := NoDup (map p_ID ps).
Definition known_neighbours (ps : list panel) : Prop :=
  forall p n, In p ps -> In n (p_neigh p) -> exists q, In q ps /\ p_ID q = n.
Definition connected (ps : list panel) : Prop :=
  forall j, (j < length ps)%nat -> reachable ps j.

(* ------------------------------------------------------------------ *)
(** * Sorted pairs *)
Lemma key_eqb_eq a b : key_eqb a b = true <-> a = b.
Proof.
  unfold key_eqb; rewrite andb_true_iff, !Nat.eqb_eq; destruct a, b; cbn; split; intros H.
  - destruct H; subst; auto.
  - injection H as -> ->; auto.
Qed.
Lemma key_eqb_refl a : key_eqb a a = true.
Proof. apply key_eqb_eq; auto. Qed.
Lemma key_eqb_neq a b : key_eqb a b = false <-> a <> b.
Proof. rewrite <- key_eqb_eq; destruct (key_eqb a b); split; congruence. Qed.

Definition plt (a b : nat * nat) : Prop :=
  (fst a < fst b \/ (fst a = fst b /\ snd a < snd b))%nat.
Lemma pair_ltb_lt a b : pair_ltb a b = true <-> plt a b.
Proof.
  unfold pair_ltb, plt; rewrite orb_true_iff, andb_true_iff, !Nat.ltb_lt, Nat.eqb_eq; tauto.
Qed.
Lemma plt_total a b : pair_ltb a b = false -> key_eqb a b = false -> plt b a.
Proof.
  intros H1 H2; destruct a as [a1 a2], b as [b1 b2].
  assert (N : ~ plt (a1, a2) (b1, b2)) by (rewrite <- pair_ltb_lt; congruence).
  apply key_eqb_neq in H2; unfold plt in *; cbn in *.
  assert (a1 <> b1 \/ a2 <> b2) by (destruct (Nat.eq_dec a1 b1), (Nat.eq_dec a2 b2); subst; auto; congruence).
  lia.
Qed.
Lemma plt_trans a b c : plt a b -> plt b c -> plt a c.
Proof. unfold plt; lia. Qed.

Lemma pins_in a l x : In x (pins a l) <-> x = a \/ In x l.
Proof.
  induction l as [|b t IH]; cbn [pins]; [cbn; intuition|].
  destruct (pair_ltb a b); [cbn; intuition|].
  destruct (key_eqb a b) eqn:E; [apply key_eqb_eq in E; subst; cbn; intuition|].
  cbn [In]; rewrite IH; intuition.
Qed.
Lemma puniq_in l x : In x (puniq l) <-> In x l.
Proof. induction l as [|a t IH]; cbn [puniq]; [reflexivity|]. rewrite pins_in, IH; cbn; intuition. Qed.
Lemma pins_sorted a l : StronglySorted plt l -> StronglySorted plt (pins a l).
Proof.
  induction 1 as [|b t Ht IH Hf]; cbn [pins]; [repeat constructor|].
  destruct (pair_ltb a b) eqn:E1.
  - apply pair_ltb_lt in E1; constructor; [constructor; auto|]. constructor; auto.
    eapply Forall_impl; [|exact Hf]; intros; eapply plt_trans; eauto.
  - destruct (key_eqb a b) eqn:E2; [constructor; auto|].
    constructor; auto. apply Forall_forall; intros x Hx; apply pins_in in Hx.
    destruct Hx as [->|Hx]; [apply plt_total; auto|]. rewrite Forall_forall in Hf; auto.
Qed.
Lemma puniq_sorted l : StronglySorted plt (puniq l).
Proof. induction l; cbn [puniq]; [constructor | apply pins_sorted; auto]. Qed.
Lemma plt_sorted_nodup l : StronglySorted plt l -> NoDup l.
Proof.
  induction 1 as [|a t Ht IH Hf]; constructor; auto.
  intros Hin; rewrite Forall_forall in Hf; specialize (Hf a Hin); unfold plt in Hf; lia.
Qed.

Lemma psort_cases p : psort p = p /\ (fst p <= snd p)%nat \/ psort p = pflip p /\ (snd p < fst p)%nat.
Proof. unfold psort, pflip; destruct (Nat.leb_spec (fst p) (snd p)); auto. Qed.
Lemma psort_le p : (fst (psort p) <= snd (psort p))%nat.
Proof. destruct (psort_cases p) as [[-> H]|[-> H]]; cbn; lia. Qed.
Lemma psort_sorted p : (fst p <= snd p)%nat -> psort p = p.
Proof. intros H; destruct (psort_cases p) as [[E _]|[_ H']]; auto; lia. Qed.

(* ------------------------------------------------------------------ *)
(** * Declared boundaries *)
Lemma mapR_all {A B} (f : A -> result B) : forall l,
  (forall x, In x l -> exists y, f x = Ok y) ->
  exists r, mapR f l = Ok r /\ forall y, In y r <-> exists x, In x l /\ f x = Ok y.
Proof.
  induction l as [|a t IH]; intros H; cbn [mapR].
  - exists []; split; auto; intros y; split; [intros [] | intros [x [[] _]]].
  - destruct (H a (or_introl eq_refl)) as [b Eb]; rewrite Eb; cbn [bind].
    destruct (IH (fun x Hx => H x (or_intror Hx))) as [r [-> Hr]]; cbn [bind].
    exists (b :: r); split; auto; intros y; cbn [In]; rewrite Hr; split.
    + intros [<-|[x [Hx Ex]]]; eauto.
    + intros [x [[<-|Hx] Ex]]; [left; congruence | right; eauto].
Qed.
Lemma mapR_err {A B} (f : A -> result B) e : forall l,
  (forall x, In x l -> (exists y, f x = Ok y) \/ f x = Err e) ->
  (exists x, In x l /\ f x = Err e) -> mapR f l = Err e.
Proof.
  induction l as [|a t IH]; intros H [x [Hx Ex]]; [destruct Hx|]; cbn [mapR].
  destruct (H a (or_introl eq_refl)) as [[b Eb]|Eb]; rewrite Eb; cbn [bind]; auto.
  rewrite IH; auto; [intros z Hz; apply H; right; auto|].
  destruct Hx as [<-|Hx]; [congruence | eauto].
Qed.

Lemma id_index_spec ps n : distinct_ids ps ->
  (forall i, id_index ps n = Ok i <-> exists q, nth_error ps i = Some q /\ p_ID q = n) /\
  ((exists i, id_index ps n = Ok i) \/ id_index ps n = Err KeyError).
Proof.
  intros Hd; unfold id_index.
  destruct (index_of n (ids ps)) as [k|] eqn:E.
  - split; [|eauto]. intros i; split.
    + intros X; injection X as <-; apply index_of_some in E; destruct E as [_ [E _]].
      unfold ids in E; rewrite nth_error_map in E.
      destruct (nth_error ps k) as [q|]; [|discriminate]; injection E as E; eauto.
    + intros [q [Hq En]]; f_equal.
      assert (nth_error (ids ps) i = Some n) as X
        by (unfold ids; rewrite nth_error_map, Hq; cbn; congruence).
      apply (index_of_nodup n (ids ps) i Hd) in X; congruence.
  - split; [|auto]. intros i; split; [discriminate|].
    intros [q [Hq En]]; exfalso; apply index_of_none in E; apply E.
    apply nth_error_In in Hq; unfold ids; rewrite <- En; apply in_map; auto.
Qed.

Definition lists (ps : list panel) (i j : nat) : Prop :=
  exists p n, nth_error ps i = Some p /\ In n (p_neigh p) /\ id_index ps n = Ok j.

Lemma declared_from_spec ps : distinct_ids ps -> known_neighbours ps ->
  forall l i, l = skipn i ps ->
  exists r, declared_from ps i l = Ok r /\
    forall a b, In (a, b) r <->
      ((i <= a)%nat /\ lists ps a b) \/ ((i <= b)%nat /\ lists ps b a).
Proof.
  intros Hd Hk; induction l as [|p t IH]; intros i El; cbn [declared_from].
  - exists []; split; auto; intros a b; split; [intros []|].
    assert (Hlen : (length ps <= i)%nat).
    { destruct (Nat.le_gt_cases (length ps) i); auto.
      symmetry in El; apply (f_equal (@length panel)) in El; rewrite skipn_length in El; cbn in El; lia. }
    intros [[H1 [p [n [H2 _]]]]|[H1 [p [n [H2 _]]]]];
      assert (X := proj1 (nth_error_Some ps _) ltac:(rewrite H2; discriminate)); lia.
  - assert (Hp : nth_error ps i = Some p).
    { rewrite <- (firstn_skipn i ps), <- El.
      assert (Li : (i <= length ps)%nat).
      { destruct (Nat.le_gt_cases i (length ps)); auto.
        symmetry in El; apply (f_equal (@length panel)) in El; rewrite skipn_length in El; cbn in El; lia. }
      rewrite nth_error_app2 by (rewrite firstn_length; lia).
      rewrite firstn_length, Nat.min_l, Nat.sub_diag by lia; reflexivity. }
    assert (Et : t = skipn (S i) ps).
    { change (S i) with (1 + i)%nat; rewrite <- skipn_skipn, <- El; reflexivity. }
    destruct (IH (S i) Et) as [r [Er Hr]].
    unfold declared_of.
    destruct (mapR_all (id_index ps) (p_neigh p)) as [ns [-> Hns]].
    { intros n Hn; destruct (Hk p n (nth_error_In _ _ Hp) Hn) as [q [Hq En]].
      apply In_nth_error in Hq; destruct Hq as [j Hj]; exists j.
      apply id_index_spec; eauto. }
    cbn [bind]; rewrite Er; cbn [bind]; eexists; split; [reflexivity|].
    assert (Hl : forall b, lists ps i b <-> In b ns).
    { intros b; rewrite Hns; unfold lists; split.
      - intros [p' [n [H1 [H2 H3]]]]; rewrite Hp in H1; injection H1 as <-; eauto.
      - intros [n [H2 H3]]; exists p, n; auto. }
    intros a b; rewrite in_app_iff, Hr, in_flat_map.
    assert (Hpair : (exists e, In e ns /\ In (a, b) [psort (i, e); pflip (psort (i, e))]) <->
                    (a = i /\ lists ps i b) \/ (b = i /\ lists ps i a)).
    { split.
      - intros [e [He Hin]].
        assert (C : (a, b) = (i, e) \/ (a, b) = (e, i)).
        { destruct (psort_cases (i, e)) as [[E _]|[E _]]; rewrite E in Hin; cbn in Hin; intuition. }
        destruct C as [C|C]; injection C as -> ->; [left | right]; split; auto; apply Hl; auto.
      - intros [[-> H]|[-> H]]; apply Hl in H; eexists; split; eauto.
        + destruct (psort_cases (i, b)) as [[E _]|[E _]]; rewrite E; cbn; auto.
        + destruct (psort_cases (i, a)) as [[E _]|[E _]]; rewrite E; cbn; auto. }
    rewrite Hpair; split.
    + intros [[[-> H]|[-> H]]|[[H1 H2]|[H1 H2]]]; [left|right|left|right]; split; auto; lia.
    + intros [[H1 H2]|[H1 H2]].
      * destruct (Nat.eq_dec a i) as [->|]; [auto | right; left; split; auto; lia].
      * destruct (Nat.eq_dec b i) as [->|]; [auto | right; right; split; auto; lia].
Qed.

Lemma declared_from_err ps : distinct_ids ps ->
  forall l i, (exists p n, In p l /\ In n (p_neigh p) /\ id_index ps n = Err KeyError) ->
  declared_from ps i l = Err KeyError.
Proof.
  intros Hd; induction l as [|p t IH]; intros i [p' [n [Hp [Hn En]]]]; [destruct Hp|].
  cbn [declared_from]; unfold declared_of.
  assert (Hall : forall x, In x (p_neigh p) -> (exists y, id_index ps x = Ok y) \/ id_index ps x = Err KeyError)
    by (intros x _; apply id_index_spec; auto).
  destruct (existsb (fun n => negb (is_ok (id_index ps n))) (p_neigh p)) eqn:E.
  - apply existsb_exists in E; destruct E as [m [Hm Em]].
    rewrite (mapR_err (id_index ps) KeyError (p_neigh p)); auto.
    exists m; split; auto; destruct (Hall m Hm) as [[y Ey]|]; auto; rewrite Ey in Em; discriminate.
  - assert (Hok : forall x, In x (p_neigh p) -> exists y, id_index ps x = Ok y).
    { intros x Hx; destruct (Hall x Hx) as [|Ex]; auto; exfalso.
      assert (existsb (fun n => negb (is_ok (id_index ps n))) (p_neigh p) = true); [|congruence].
      apply existsb_exists; exists x; rewrite Ex; auto. }
    destruct (mapR_all _ _ Hok) as [r [-> _]]; cbn [bind].
    rewrite IH; auto. destruct Hp as [<-|Hp]; [|eauto].
    destruct (Hok n Hn); congruence.
Qed.

Lemma lists_neighbours ps i j : distinct_ids ps ->
  (lists ps i j \/ lists ps j i) <-> neighbours ps i j.
Proof.
  intros Hd; unfold lists, neighbours; split.
  - intros [[p [n [H1 [H2 H3]]]]|[p [n [H1 [H2 H3]]]]];
      apply id_index_spec in H3; auto; destruct H3 as [q [Hq En]]; subst n.
    + exists p, q; auto.
    + exists q, p; auto.
  - intros [p [q [H1 [H2 [H3|H3]]]]]; [left; exists p, (p_ID q) | right; exists q, (p_ID p)];
      repeat split; auto; apply id_index_spec; eauto.
Qed.

Lemma declared_spec ps : distinct_ids ps -> known_neighbours ps ->
  exists r, declared_from ps 0 ps = Ok r /\ forall a b, In (a, b) r <-> neighbours ps a b.
Proof.
  intros Hd Hk; destruct (declared_from_spec ps Hd Hk ps 0 eq_refl) as [r [E H]].
  exists r; split; auto; intros a b; rewrite H, <- lists_neighbours by auto.
  split; intros [X|X]; intuition lia.
Qed.

(* ------------------------------------------------------------------ *)
(** * Reachability loop *)
Lemma memn_true x l : memn x l = true <-> In x l.
Proof.
  unfold memn; rewrite existsb_exists; split.
  - intros [y [H E]]; apply Nat.eqb_eq in E; subst; auto.
  - intros H; exists x; split; auto; apply Nat.eqb_refl.
Qed.
Lemma memn_false x l : memn x l = false <-> ~ In x l.
Proof. rewrite <- memn_true; destruct (memn x l); split; congruence. Qed.

Lemma add_neighbours_spec cur visited : forall bs avail,
  exists extra, add_neighbours bs cur visited avail = avail ++ extra /\
    (forall b, In b extra -> In (cur, b) bs /\ ~ In b visited /\ ~ In b avail) /\
    NoDup extra /\
    (forall b, In (cur, b) bs -> In b visited \/ In b (avail ++ extra)).
Proof.
  induction bs as [|[a b] t IH]; intros avail; cbn [add_neighbours].
  - exists []; rewrite app_nil_r; split; auto; split; [intros b []|]; split; [constructor|intros b []].
  - destruct (Nat.eqb_spec a cur) as [->|Hne]; cbn [andb].
    + destruct (memn b visited) eqn:E1; cbn [negb andb].
      * destruct (IH avail) as [ex [-> [H1 [H2 H3]]]]; exists ex; split; auto; split; [|split]; auto.
        -- intros x Hx; destruct (H1 x Hx); split; auto; right; auto.
        -- intros x [E|Hx]; auto; injection E as <-; left; apply memn_true; auto.
      * destruct (memn b avail) eqn:E2; cbn [negb].
        -- destruct (IH avail) as [ex [-> [H1 [H2 H3]]]]; exists ex; split; auto; split; [|split]; auto.
           ++ intros x Hx; destruct (H1 x Hx); split; auto; right; auto.
           ++ intros x [E|Hx]; auto; injection E as <-; right; apply in_or_app; left; apply memn_true; auto.
        -- destruct (IH (avail ++ [b])) as [ex [-> [H1 [H2 H3]]]]; exists (b :: ex).
           apply memn_false in E1, E2.
           rewrite <- app_assoc; split; auto; split; [|split].
           ++ intros x [<-|Hx]; [repeat split; auto; left; auto|].
              destruct (H1 x Hx) as [X1 [X2 X3]]; repeat split; auto; [right; auto|].
              intros X; apply X3, in_or_app; auto.
           ++ constructor; auto; intros X; destruct (H1 b X) as [_ [_ X3]].
              apply X3, in_or_app; right; left; auto.
           ++ intros x [E|Hx].
              ** injection E as <-; right; apply in_or_app; right; left; auto.
              ** destruct (H3 x Hx) as [|X]; auto; right; rewrite <- app_assoc in X; exact X.
    + destruct (IH avail) as [ex [-> [H1 [H2 H3]]]]; exists ex; split; auto; split; [|split]; auto.
      * intros x Hx; destruct (H1 x Hx); split; auto; right; auto.
      * intros x [E|Hx]; auto; injection E as -> ->; congruence.
Qed.

Lemma NoDup_app_l {A} (l m : list A) : NoDup (l ++ m) -> NoDup l.
Proof.
  induction l as [|a t IH]; cbn; intros H; [constructor|].
  inversion H; subst; constructor; auto; intros X; apply H2, in_or_app; auto.
Qed.

Lemma del_perm {A} (d : A) : forall l i, (i < length l)%nat ->
  Permutation l (nth i l d :: del i l).
Proof.
  induction l as [|a t IH]; intros [|i] H; cbn [length nth del] in *; try lia; auto.
  rewrite (IH i) at 1 by lia; apply perm_swap.
Qed.

Section Visit.
Variables (ps : list panel) (bs : list (nat * nat)) (pop : list nat -> nat).
Hypothesis Hbs : forall a b, In (a, b) bs <-> neighbours ps a b.

Definition vinv (visited avail : list nat) : Prop :=
  NoDup (visited ++ avail) /\
  (forall v, In v (visited ++ avail) -> (v < length ps)%nat /\ reachable ps v) /\
  In 0%nat (visited ++ avail) /\
  (forall v b, In v visited -> neighbours ps v b -> In b (visited ++ avail)).

Lemma neighbours_lt i j : neighbours ps i j -> (i < length ps)%nat /\ (j < length ps)%nat.
Proof.
  intros [p [q [H1 [H2 _]]]]; split; apply nth_error_Some; congruence.
Qed.

Lemma visit_spec : forall k visited avail,
  vinv visited avail -> (length visited + k = length ps)%nat ->
  let r := visit pop bs k visited avail in
  vinv r [] \/ (length r = length ps /\ NoDup r /\ forall v, In v r -> (v < length ps)%nat /\ reachable ps v).
Proof.
  induction k as [|k IH]; intros visited avail Hv Hk; cbn [visit]; cbn zeta.
  - right; destruct Hv as [H1 [H2 _]]; split; [lia|]. split.
    + apply NoDup_app_l in H1; auto.
    + intros v Hin; apply H2, in_or_app; auto.
  - destruct avail as [|x t] eqn:Ea; [left; exact Hv|]; rewrite <- Ea in *.
    assert (Hi : (pop_at pop avail < length avail)%nat)
      by (apply Nat.mod_upper_bound; rewrite Ea; discriminate).
    set (i := pop_at pop avail) in *; set (cur := nth i avail 0%nat) in *.
    apply IH; [|rewrite app_length; cbn; lia].
    pose proof (del_perm 0%nat avail i Hi) as P; fold cur in P.
    destruct (add_neighbours_spec cur (visited ++ [cur]) bs (del i avail)) as [ex [-> [E1 [E2 E3]]]].
    destruct Hv as [V1 [V2 [V3 V4]]].
    assert (P2 : Permutation (visited ++ avail) ((visited ++ [cur]) ++ del i avail)).
    { rewrite <- app_assoc; apply Permutation_app_head; exact P. }
    assert (P3 : (visited ++ [cur]) ++ del i avail ++ ex = ((visited ++ [cur]) ++ del i avail) ++ ex)
      by apply app_assoc.
    assert (Hcur : In cur (visited ++ avail))
      by (apply in_or_app; right; apply nth_In; auto).
    unfold vinv; rewrite P3; split; [|split; [|split]].
    + assert (N1 : NoDup ((visited ++ [cur]) ++ del i avail)) by (eapply Permutation_NoDup; eauto).
      assert (Hd : forall z, In z ex -> ~ In z ((visited ++ [cur]) ++ del i avail)).
      { intros z Hz X; destruct (E1 z Hz) as [_ [X1 X2]]; apply in_app_or in X; tauto. }
      clear -N1 Hd E2.
      induction ((visited ++ [cur]) ++ del i avail) as [|a l IHl]; auto; cbn [app].
      inversion N1; subst; constructor.
      * rewrite in_app_iff; intros [X|X]; auto. apply (Hd a X); left; auto.
      * apply IHl; auto; intros z Hz X; apply (Hd z Hz); right; auto.
    + intros v Hin; apply in_app_or in Hin; destruct Hin as [Hin|Hin].
      * apply V2; apply Permutation_sym in P2; eapply Permutation_in; eauto.
      * destruct (E1 v Hin) as [X _]; apply Hbs in X; split; [apply neighbours_lt in X; tauto|].
        eapply reach_next; [|exact X]; apply V2; auto.
    + apply in_or_app; left; eapply Permutation_in; [exact P2 | exact V3].
    + intros v b Hin Hn; apply in_app_or in Hin; destruct Hin as [Hin|[<-|[]]].
      * apply in_or_app; left; eapply Permutation_in; [exact P2|]; eapply V4; eauto.
      * apply Hbs, E3 in Hn; rewrite <- P3; destruct Hn as [Hn|Hn].
        -- apply in_or_app; left; exact Hn.
        -- apply in_or_app; right; exact Hn.
Qed.

Lemma visit_connected : (0 < length ps)%nat ->
  (length (visit pop bs (length ps) [] [0%nat]) = length ps <-> connected ps).
Proof.
  intros Hn.
  assert (V0 : vinv [] [0%nat]).
  { split; [repeat constructor; intros []|]. split.
    - intros v [<-|[]]; split; auto; constructor.
    - split; [left; auto | intros v b []]. }
  pose proof (visit_spec (length ps) [] [0%nat] V0 eq_refl) as [[H1 [H2 [H3 H4]]]|[H1 [H2 H3]]].
  - rewrite app_nil_r in H1, H2, H3.
    set (r := visit pop bs (length ps) [] [0%nat]) in *.
    assert (Hall : forall j, reachable ps j -> In j r).
    { intros j Hj; induction Hj as [|i j _ IH Hij]; auto.
      specialize (H4 i j IH Hij); rewrite app_nil_r in H4; auto. }
    split.
    + intros L j Hj; apply H2.
      assert (Hin : incl (seq 0 (length ps)) r).
      { apply NoDup_length_incl; auto; [rewrite seq_length; lia|].
        intros v Hv; apply in_seq; specialize (H2 v Hv); lia. }
      apply Hin, in_seq; lia.
    + intros C; apply Nat.le_antisymm.
      * rewrite <- (seq_length (length ps) 0); apply NoDup_incl_length; auto.
        intros v Hv; apply in_seq; specialize (H2 v Hv); lia.
      * rewrite <- (seq_length (length ps) 0); apply NoDup_incl_length; [apply seq_NoDup|].
        intros v Hv; apply in_seq in Hv; apply Hall, C; lia.
  - split; [|auto]; intros _ j Hj; apply H3.
    assert (Hin : incl (seq 0 (length ps)) (visit pop bs (length ps) [] [0%nat])).
    { apply NoDup_length_incl; auto; [rewrite seq_length; lia|].
      intros v Hv; apply in_seq; specialize (H3 v Hv); lia. }
    apply Hin, in_seq; lia.
Qed.
End Visit.

Lemma known_neighbours_dec ps : distinct_ids ps ->
  known_neighbours ps \/ exists p n, In p ps /\ In n (p_neigh p) /\ id_index ps n = Err KeyError.
Proof.
  intros Hd.
  destruct (existsb (fun p => existsb (fun n => negb (is_ok (id_index ps n))) (p_neigh p)) ps) eqn:E.
  - right; apply existsb_exists in E; destruct E as [p [Hp E]].
    apply existsb_exists in E; destruct E as [n [Hn E]]; exists p, n; repeat split; auto.
    destruct (id_index_spec ps n Hd) as [_ [[i X]|X]]; auto; rewrite X in E; discriminate.
  - left; intros p n Hp Hn.
    destruct (id_index_spec ps n Hd) as [X [[i Y]|Y]].
    + apply X in Y; destruct Y as [q [H1 H2]]; exists q; split; auto; eapply nth_error_In; eauto.
    + exfalso.
      assert (existsb (fun p => existsb (fun n => negb (is_ok (id_index ps n))) (p_neigh p)) ps = true);
        [|congruence].
      apply existsb_exists; exists p; split; auto; apply existsb_exists; exists n; rewrite Y; auto.
Qed.

Lemma mp_boundaries_ok pop ps :
  ps <> [] -> distinct_ids ps -> known_neighbours ps -> connected ps ->
  exists bs, mp_boundaries pop ps = Ok bs /\ StronglySorted plt bs /\
    forall i j, In (i, j) bs <-> (i <= j)%nat /\ neighbours ps i j.
Proof.
  intros Hne Hd Hk Hc; unfold mp_boundaries; destruct ps as [|p0 t0]; [congruence|].
  set (ps := p0 :: t0) in *.
  assert (Nat.eqb (length (uniq (ids ps))) (length ps) = true) as ->.
  { apply Nat.eqb_eq; replace (length ps) with (length (ids ps)) by apply map_length.
    apply uniq_nodup_length; exact Hd. }
  cbn [negb guard bind].
  destruct (declared_spec ps Hd Hk) as [r [-> Hr]]; cbn [bind].
  assert (Hb : forall a b, In (a, b) (puniq r) <-> neighbours ps a b)
    by (intros; rewrite puniq_in; apply Hr).
  assert (length (visit pop (puniq r) (length ps) [] [0%nat]) = length ps) as ->.
  { apply (visit_connected ps (puniq r) pop Hb); auto; cbn; lia. }
  rewrite Nat.eqb_refl; cbn [negb guard bind].
  eexists; split; [reflexivity|]; split; [apply puniq_sorted|].
  intros i j; rewrite puniq_in, in_map_iff; split.
  - intros [[a b] [E Hin]]; apply Hb in Hin.
    assert (Hs : neighbours ps b a).
    { destruct Hin as [p [q [H1 [H2 H3]]]]; exists q, p; tauto. }
    destruct (psort_cases (a, b)) as [[E' H]|[E' H]]; rewrite E' in E; cbn in *;
      injection E as -> ->; split; auto; lia.
  - intros [H1 H2]; exists (i, j); split; [apply psort_sorted; auto | apply Hb; auto].
Qed.

Lemma mp_boundaries_reject pop ps :
  (ps = [] -> mp_boundaries pop ps = Err ValueError) /\
  (ps <> [] -> ~ distinct_ids ps -> mp_boundaries pop ps = Err (Raised DuplicateId)) /\
  (ps <> [] -> distinct_ids ps -> ~ known_neighbours ps -> mp_boundaries pop ps = Err KeyError) /\
  (ps <> [] -> distinct_ids ps -> known_neighbours ps -> ~ connected ps ->
   mp_boundaries pop ps = Err (Raised Disconnected)).
Proof.
  split; [intros ->; reflexivity|].
  destruct ps as [|p0 t0]; [split; [congruence | split; congruence]|].
  set (ps := p0 :: t0) in *.
  change (mp_boundaries pop ps) with
   (do _ <- guard (negb (Nat.eqb (length (uniq (ids ps))) (length ps))) (Raised DuplicateId);
    do decl <- declared_from ps 0 ps;
    let bs := puniq decl in
    let visited := visit pop bs (length ps) [] [0%nat] in
    do _ <- guard (negb (Nat.eqb (length visited) (length ps))) (Raised Disconnected);
    Ok (puniq (map psort bs))).
  assert (HD : length (uniq (ids ps)) = length ps <-> distinct_ids ps).
  { replace (length ps) with (length (ids ps)) by apply map_length. apply uniq_nodup_length. }
  split; [|split].
  - intros _ Hd; assert (Nat.eqb (length (uniq (ids ps))) (length ps) = false) as ->
      by (apply Nat.eqb_neq; tauto). reflexivity.
  - intros _ Hd Hk. rewrite (proj2 (Nat.eqb_eq _ _) (proj2 HD Hd)); cbn [negb guard bind].
    destruct (known_neighbours_dec ps Hd) as [|X]; [tauto|].
    rewrite declared_from_err; auto.
  - intros _ Hd Hk Hc. rewrite (proj2 (Nat.eqb_eq _ _) (proj2 HD Hd)); cbn [negb guard bind].
    destruct (declared_spec ps Hd Hk) as [r [-> Hr]]; cbn [bind]; cbn zeta.
    assert (Hb : forall a b, In (a, b) (puniq r) <-> neighbours ps a b)
      by (intros; rewrite puniq_in; apply Hr).
    assert (Nat.eqb (length (visit pop (puniq r) (length ps) [] [0%nat])) (length ps) = false) as ->.
    { apply Nat.eqb_neq; intros X; apply Hc.
      apply (visit_connected ps (puniq r) pop Hb) in X; auto; cbn; lia. }
    reflexivity.
Qed.

Lemma mp_boundaries_iff pop ps :
  (exists bs, mp_boundaries pop ps = Ok bs) <->
  ps <> [] /\ distinct_ids ps /\ known_neighbours ps /\ connected ps.
Proof.
  split.
  - intros [bs E].
    destruct (mp_boundaries_reject pop ps) as [R0 [R1 [R2 R3]]].
    assert (Hne : ps <> []) by (intros X; rewrite (R0 X) in E; discriminate).
    assert (Hd : distinct_ids ps).
    { unfold distinct_ids; destruct (ListDec.NoDup_dec Z.eq_dec (map p_ID ps)) as [|n]; auto.
      rewrite (R1 Hne n) in E; discriminate. }
    assert (Hk : known_neighbours ps).
    { destruct (known_neighbours_dec ps Hd) as [|X]; auto; exfalso.
      destruct ps as [|p0 t0]; [congruence|].
      assert (HD : length (uniq (ids (p0 :: t0))) = length (p0 :: t0)).
      { replace (length (p0 :: t0)) with (length (ids (p0 :: t0))) by apply map_length.
        apply uniq_nodup_length; auto. }
      unfold mp_boundaries in E; rewrite HD, Nat.eqb_refl in E; cbn [negb guard bind] in E.
      rewrite declared_from_err in E; auto; discriminate. }
    repeat split; auto.
    destruct ps as [|p0 t0]; [congruence|].
    destruct (declared_spec (p0 :: t0) Hd Hk) as [r [Er Hr]].
    assert (Hb : forall a b, In (a, b) (puniq r) <-> neighbours (p0 :: t0) a b)
      by (intros; rewrite puniq_in; apply Hr).
    apply (visit_connected (p0 :: t0) (puniq r) pop Hb); [cbn; lia|].
    assert (HD : length (uniq (ids (p0 :: t0))) = length (p0 :: t0)).
    { replace (length (p0 :: t0)) with (length (ids (p0 :: t0))) by apply map_length.
      apply uniq_nodup_length; auto. }
    unfold mp_boundaries in E; rewrite HD, Nat.eqb_refl in E; cbn [negb guard bind] in E.
    rewrite Er in E; cbn [bind] in E; cbn zeta in E.
    destruct (Nat.eqb_spec (length (visit pop (puniq r) (length (p0 :: t0)) [] [0%nat])) (length (p0 :: t0)));
      auto. cbn [negb guard bind] in E; discriminate.
  - intros [H1 [H2 [H3 H4]]]; destruct (mp_boundaries_ok pop ps H1 H2 H3 H4) as [bs [E _]]; eauto.
Qed.
