(* PdlGroupProofs.v - lemmas about PdlGroup.v *)
From Verif Require Import Base Uniq Divers Strip Spacing Format FormatProofs PdlTools PdlToolsProofs Search SearchProofs PdlGroup.
Local Open Scope Z_scope.

(* ------------------------------------------------------------------ *)
(** * samples *)

(** [s] is a sample of k distinct elements satisfying [ok] *)
Definition drawn (ok : nat -> Prop) (k : Z) (s : list nat) : Prop :=
  NoDup s /\ (forall i, In i s -> ok i) /\ zlen s = k.

Fixpoint valid_deletions (us : list Z) (size : Z) (dels : list (list nat)) : Prop :=
  match us with
  | [] => True
  | u :: rest => drawn (fun i => Z.of_nat i < size) (size - u) (hd [] dels) /\ valid_deletions rest u (tl dels)
  end.

(** what random.sample can return in one iteration *)
Definition valid_draw (top bottom : bool) (n_max : nat) (uniques : list Z) (d : draw) : Prop :=
  match rev uniques with
  | [] => True
  | u :: rest =>
    drawn (fun i => (first_position top <= i)%nat /\ Z.of_nat i < Z.of_nat (first_position top) + n_positions top bottom (Z.of_nat n_max))
          u (first_sample d) /\
    valid_deletions rest u (deletions d)
  end.

Lemma without_length d cur : NoDup d -> (forall i, In i d -> (i < length cur)%nat) ->
  length (without d cur) = (length cur - length d)%nat.
Proof.
  intros N B. unfold without. rewrite np_delete_keepf. rewrite filter_fst_combine by (rewrite flags_length; auto).
  pose proof (countb_split id (flags 0 (length cur) d)) as C. rewrite flags_length in C.
  assert (C2 : countb (fun x => negb (id x)) (flags 0 (length cur) d) = length d) by (apply (flags_count (length cur) d); auto).
  lia.
Qed.

Lemma keepf_sub {A} : forall (fs : list bool) (l : list A), incl (keepf fs l) l /\ (NoDup l -> NoDup (keepf fs l)).
Proof.
  unfold keepf. induction fs as [|f fs IH]; intros [|x l]; cbn; try (split; [intros y []|constructor]; fail).
  destruct (IH l) as [I N]. destruct f; cbn [map snd].
  - split.
    + intros y [<-|Hy]; [left; auto|right; apply I; auto].
    + intros H. inversion H; subst. constructor; [intros X; apply I in X; auto|auto].
  - split; [intros y Hy; right; apply I; auto|]; intros H; inversion H; auto.
Qed.
Lemma without_incl d cur : incl (without d cur) cur.
Proof. unfold without. rewrite np_delete_keepf. apply keepf_sub. Qed.
Lemma without_nodup d cur : NoDup cur -> NoDup (without d cur).
Proof. unfold without. rewrite np_delete_keepf. apply keepf_sub. Qed.

(** a strictly decreasing list of non-negative numbers below [size] *)
Fixpoint decreasing (size : Z) (us : list Z) : Prop :=
  match us with [] => True | u :: rest => 0 <= u < size /\ decreasing u rest end.

Lemma shrink_spec : forall us size cur dels,
  decreasing size us -> zlen cur = size -> NoDup cur -> valid_deletions us size dels ->
  exists r, shrink us size cur dels = Ok r /\ length r = length us /\
    (forall i, (i < length us)%nat -> zlen (nth i r []) = nth i us 0 /\ NoDup (nth i r []) /\ incl (nth i r []) cur) /\
    (forall i j, (i < j < length us)%nat -> incl (nth j r []) (nth i r [])).
Proof.
  induction us as [|u us IH]; intros size cur dels D L N V; cbn [shrink].
  - exists []; split; [auto|]. split; [auto|]. split; intros; cbn in *; lia.
  - cbn [decreasing] in D. destruct D as [D1 D2]. cbn [valid_deletions] in V. destruct V as [[V1 [V2 V3]] V4].
    unfold sample. destruct (Z.ltb_spec (size - u) 0); [lia|]. destruct (Z.ltb_spec (zlen cur) (size - u)); [lia|]. cbn [orb bind].
    set (l := without (hd [] dels) cur).
    assert (B : forall i, In i (hd [] dels) -> (i < length cur)%nat) by (intros i Hi; apply V2 in Hi; unfold zlen in *; lia).
    assert (Ll : zlen l = u).
    { unfold l, zlen. rewrite without_length by auto. unfold zlen in V3, L. lia. }
    assert (Nl : NoDup l) by (apply without_nodup; auto).
    assert (Il : incl l cur) by apply without_incl.
    destruct (IH u l (tl dels) D2 Ll Nl V4) as [r [E [Lr [P Q]]]]. rewrite E; cbn [bind].
    exists (l :: r). split; [auto|]. split; [cbn; lia|]. split.
    + intros [|i] Hi; cbn [nth]; [auto|]. cbn in Hi. destruct (P i ltac:(lia)) as [P1 [P2 P3]]. split; auto. split; auto.
      intros x Hx; auto.
    + intros [|i] [|j] Hij; cbn [nth]; cbn in Hij; try lia.
      * apply P; lia.
      * apply Q; lia.
Qed.

Lemma ssorted_snoc {A} (R : A -> A -> Prop) l a : StronglySorted R l -> (forall x, In x l -> R x a) -> StronglySorted R (l ++ [a]).
Proof.
  induction 1 as [|b l H IH F]; intros B; cbn [app]; [repeat constructor|].
  constructor.
  - apply IH. intros; apply B; right; auto.
  - rewrite Forall_forall in *. intros x Hx. apply in_app_or in Hx. destruct Hx as [Hx|[<-|[]]]; auto. apply B; left; auto.
Qed.
Lemma ssorted_rev {A} (R : A -> A -> Prop) l : StronglySorted R l -> StronglySorted (fun x y => R y x) (rev l).
Proof.
  induction 1 as [|b l H IH F]; cbn [rev]; [constructor|]. apply ssorted_snoc; auto.
  intros x Hx. apply in_rev in Hx. rewrite Forall_forall in F; auto.
Qed.
Lemma decreasing_rev l u rest : StronglySorted Z.lt l -> (forall x, In x l -> 0 <= x) -> rev l = u :: rest -> decreasing u rest.
Proof.
  intros S B E.
  assert (G : forall b a, StronglySorted (fun x y => y < x) (a :: b) -> (forall x, In x (a :: b) -> 0 <= x) -> decreasing a b).
  { induction b as [|c b IH]; intros a Hs Hb; cbn [decreasing]; auto.
    inversion Hs as [|? ? H1 H2]; subst. inversion H2; subst. split; [split; [apply Hb; right; left; auto|auto]|].
    apply IH; auto. intros; apply Hb; right; auto. }
  apply G.
  - rewrite <- E. apply (ssorted_rev Z.lt). exact S.
  - intros x Hx. apply B. rewrite <- E in Hx. apply in_rev; auto.
Qed.

Lemma positions_spec top bottom n_max us d :
  us <> [] -> StronglySorted Z.lt us -> (forall u, In u us -> 0 <= u <= n_positions top bottom (Z.of_nat n_max)) ->
  valid_draw top bottom n_max us d ->
  exists pos, positions top bottom (Z.of_nat n_max) us d = Ok pos /\ length pos = length us /\
    (forall i, (i < length us)%nat -> zlen (nth i pos []) = nth i us 0 /\ NoDup (nth i pos []) /\
       (forall x, In x (nth i pos []) -> (first_position top <= x)%nat /\
           Z.of_nat x < Z.of_nat (first_position top) + n_positions top bottom (Z.of_nat n_max))) /\
    (forall i j, (i <= j < length us)%nat -> incl (nth i pos []) (nth j pos [])).
Proof.
  intros Ne Srt B V. unfold positions, valid_draw in *.
  destruct (rev us) as [|u rest] eqn:E.
  { apply (f_equal (@rev Z)) in E. rewrite rev_involutive in E. cbn in E. congruence. }
  destruct V as [[V1 [V2 V3]] V4].
  assert (Iu : In u us) by (apply in_rev; rewrite E; left; auto).
  assert (D : decreasing u rest) by (apply (decreasing_rev us); auto; intros x Hx; apply B in Hx; lia).
  unfold sample. specialize (B u Iu). destruct (Z.ltb_spec u 0); [lia|]. destruct (Z.ltb_spec (n_positions top bottom (Z.of_nat n_max)) u); [lia|].
  cbn [orb bind].
  destruct (shrink_spec rest u (first_sample d) (deletions d) D V3 V1 V4) as [r [Er [Lr [P Q]]]]. rewrite Er; cbn [bind].
  eexists; split; [reflexivity|].
  assert (Lu : length us = S (length rest)) by (rewrite <- (rev_length us), E; reflexivity).
  assert (U : us = rev (u :: rest)) by (rewrite <- E, rev_involutive; auto).
  set (full := first_sample d :: r).
  assert (Lf : length full = S (length rest)) by (unfold full; cbn; lia).
  assert (PF : forall i, (i < length full)%nat -> zlen (nth i full []) = nth i (u :: rest) 0 /\ NoDup (nth i full []) /\ incl (nth i full []) (first_sample d)).
  { intros [|i] Hi; unfold full; cbn [nth]; [split; [auto|split; [auto|apply incl_refl]]|]. apply P; lia. }
  assert (QF : forall i j, (i <= j < length full)%nat -> incl (nth j full []) (nth i full [])).
  { intros i j Hij. destruct (Nat.eq_dec i j) as [->|Ne']; [apply incl_refl|].
    destruct i as [|i]; destruct j as [|j]; try lia; unfold full in *; cbn [nth].
    - apply P; lia.
    - apply Q; lia. }
  split; [rewrite rev_length; lia|]. split.
  - intros i Hi. rewrite rev_nth by lia. rewrite Lf.
    destruct (PF (S (length rest) - S i)%nat ltac:(lia)) as [P1 [P2 P3]]. split.
    + rewrite P1. rewrite U. rewrite rev_nth by (cbn; lia). reflexivity.
    + split; auto.
  - intros i j Hij. rewrite !rev_nth by lia. apply QF. lia.
Qed.

(* ------------------------------------------------------------------ *)
(** * rows *)
Lemma count_positions (p : list nat) n : NoDup p -> (forall x, In x p -> (x < n)%nat) ->
  countb (fun j => existsb (Nat.eqb j) p) (seq 0 n) = length p.
Proof.
  intros N B. unfold countb. apply Permutation_length. apply NoDup_Permutation; auto.
  - apply NoDup_filter, seq_NoDup.
  - intros x. rewrite filter_In, in_seq, existsb_In. split; [tauto|]. intros H; split; auto. apply B in H; lia.
Qed.

Lemma memb_map_of_nat j p : memb (Z.of_nat j) (map Z.of_nat p) = existsb (Nat.eqb j) p.
Proof.
  unfold memb. induction p as [|a p IH]; cbn; auto. rewrite IH. f_equal.
  destruct (Z.eqb_spec (Z.of_nat j) (Z.of_nat a)), (Nat.eqb_spec j a); auto; lia.
Qed.

Lemma index_of_In a l : In a l -> exists i, index_of a l = Some i /\ (i < length l)%nat /\ nth i l 0 = a.
Proof.
  induction l as [|b t IH]; intros H; [destruct H|]. cbn [index_of].
  destruct (Z.eqb_spec b a) as [->|N].
  - exists 0%nat; cbn; split; auto; split; auto; lia.
  - destruct H as [H|H]; [congruence|]. destruct (IH H) as [i [-> [Hi E]]]. exists (S i); cbn; split; auto; split; auto; lia.
Qed.

(** dropped position j of a row *)
Definition dropped_at (r : list Z) (j : nat) : Prop := nth j r (-1) = -1.

(** what a layout of the group looks like before the plies are renumbered *)
Definition guide_layout (n_max : nat) (drops : list Z) (allowed : nat -> Prop) (pdl : list (list Z)) : Prop :=
  length pdl = length drops /\ rect n_max pdl /\
  (forall i, (i < length drops)%nat -> Z.of_nat (countb (fun x => negb (kept x)) (nth i pdl [])) = nth i drops 0) /\
  (forall i j, (i < length drops)%nat -> (j < n_max)%nat -> dropped_at (nth i pdl []) j -> allowed j) /\
  (forall i k j, (i < length drops)%nat -> (k < length drops)%nat -> nth i drops 0 <= nth k drops 0 -> (j < n_max)%nat ->
     dropped_at (nth i pdl []) j -> dropped_at (nth k pdl []) j).

Lemma sorted_nth_lt l i j : StronglySorted Z.lt l -> (i < j < length l)%nat -> nth i l 0 < nth j l 0.
Proof.
  intros S; revert i j; induction S as [|a l H IH F]; intros i j Hij; [cbn in Hij; lia|].
  destruct j as [|j]; [lia|]. destruct i as [|i]; cbn [nth].
  - rewrite Forall_forall in F. apply F. apply nth_In. cbn in Hij; lia.
  - apply IH. cbn in Hij; lia.
Qed.

Lemma count_row (r : list Z) n (p : list nat) : length r = n -> NoDup p -> (forall x, In x p -> (x < n)%nat) ->
  (forall j, (j < n)%nat -> nth j r (-1) = if existsb (Nat.eqb j) p then -1 else Z.of_nat j) ->
  countb (fun x => negb (kept x)) r = length p.
Proof.
  intros L N B H. rewrite <- (count_positions p n N B).
  assert (E : r = map (fun j => if existsb (Nat.eqb j) p then -1 else Z.of_nat j) (seq 0 n)).
  { apply (nth_ext _ _ (-1) (-1)); [rewrite map_length, seq_length; auto|].
    intros j Hj. rewrite H by lia.
    rewrite (nth_indep _ (-1) ((fun j => if existsb (Nat.eqb j) p then -1 else Z.of_nat j) 0%nat)) by (rewrite map_length, seq_length; lia).
    rewrite (map_nth (fun j => if existsb (Nat.eqb j) p then -1 else Z.of_nat j)), seq_nth by lia. reflexivity. }
  rewrite E. unfold countb. rewrite <- (map_length (fun j => if existsb (Nat.eqb j) p then -1 else Z.of_nat j) (filter (fun j => existsb (Nat.eqb j) p) (seq 0 n))).
  f_equal. generalize (seq 0 n). induction l as [|a l IH]; cbn [map filter]; auto.
  destruct (existsb (Nat.eqb a) p) eqn:X.
  - cbn [kept Z.eqb negb]. change (kept (-1)) with false. cbn [negb map]. rewrite X, IH. reflexivity.
  - assert (K : kept (Z.of_nat a) = true) by (apply kept_true; lia). rewrite K. cbn [negb]. exact IH.
Qed.

Lemma candidate_spec top bottom n_max drops d :
  drops <> [] -> (forall u, In u drops -> 0 <= u <= n_positions top bottom (Z.of_nat n_max)) ->
  valid_draw top bottom n_max (uniq drops) d ->
  exists pdl, candidate top bottom n_max drops None d = Ok pdl /\
    guide_layout n_max drops (fun j => (first_position top <= j)%nat /\ (bottom = true -> (S j < n_max)%nat)) pdl.
Proof.
  intros Ne B V. unfold candidate.
  assert (Ne' : uniq drops <> []).
  { destruct drops as [|x l]; [congruence|]. intros E. assert (In x (uniq (x :: l))) by (apply uniq_in; left; auto). rewrite E in H; destruct H. }
  destruct (positions_spec top bottom n_max (uniq drops) d Ne' (uniq_ssorted drops)) as [pos [Ep [Lp [P Q]]]]; auto.
  { intros u Hu. exact (B u (proj1 (uniq_in drops u) Hu)). }
  rewrite Ep; cbn [bind].
  assert (R : forall i x, (i < length pos)%nat -> In x (nth i pos []) -> (x < n_max)%nat /\ (first_position top <= x)%nat /\ (bottom = true -> (S x < n_max)%nat)).
  { intros i x Hi Hx. destruct (P i ltac:(lia)) as [_ [_ P3]]. apply P3 in Hx. unfold n_positions, first_position in *.
    destruct top, bottom; lia. }
  destruct (format_ply_drops_spec n_max (map (map Z.of_nat) pos)) as [pdl [Ef [Lf [Rf F]]]].
  { intros l e Hl He. apply in_map_iff in Hl. destruct Hl as [p [<- Hp]]. apply in_map_iff in He. destruct He as [x [<- Hx]].
    apply (In_nth _ _ []) in Hp. destruct Hp as [i [Hi <-]]. destruct (R i x Hi Hx). lia. }
  rewrite Ef; cbn [bind]. rewrite map_length in Lf, F.
  assert (Row : forall i, (i < length pos)%nat -> length (nth i pdl []) = n_max /\
     forall j, (j < n_max)%nat -> nth j (nth i pdl []) (-1) = if existsb (Nat.eqb j) (nth i pos []) then -1 else Z.of_nat j).
  { intros i Hi. split; [apply Rf, nth_In; lia|]. intros j Hj. rewrite (F i j Hi Hj).
    change (@nil Z) with (map Z.of_nat []). rewrite map_nth, memb_map_of_nat. reflexivity. }
  unfold at_each_boundary.
  destruct (mapR_forall2 (fun k => match index_of k (uniq drops) with Some i => row pdl i | None => Err KeyError end)
     (fun k r => exists i, (i < length pos)%nat /\ nth i (uniq drops) 0 = k /\ r = nth i pdl []) drops) as [t [Et T]].
  { intros k Hk. destruct (index_of_In k (uniq drops)) as [i [Ei [Hi Ek]]]; [apply uniq_in; auto|].
    rewrite Ei. exists (nth i pdl []). split; [|exists i; repeat split; auto; lia].
    unfold row. rewrite (nth_error_nth' pdl []) by lia. reflexivity. }
  exists t. split; auto.
  assert (Lt : length t = length drops) by (symmetry; eapply Forall2_len; eauto).
  assert (G : forall i, (i < length drops)%nat -> exists u, (u < length pos)%nat /\ nth u (uniq drops) 0 = nth i drops 0 /\ nth i t [] = nth u pdl []).
  { intros i Hi. exact (Forall2_nth _ _ _ 0 [] T i Hi). }
  assert (Dr : forall u j, (u < length pos)%nat -> (j < n_max)%nat -> dropped_at (nth u pdl []) j <-> In j (nth u pos [])).
  { intros u j Hu Hj. unfold dropped_at. destruct (Row u Hu) as [_ Rw]. rewrite Rw by auto.
    destruct (existsb (Nat.eqb j) (nth u pos [])) eqn:X.
    - apply existsb_In in X. tauto.
    - apply existsb_nIn in X. split; [lia|tauto]. }
  split; [auto|]. split; [|split; [|split]].
  - intros r Hr. apply (In_nth _ _ []) in Hr. destruct Hr as [i [Hi <-]]. destruct (G i ltac:(lia)) as [u [Hu [_ ->]]]. apply Row; auto.
  - intros i Hi. destruct (G i Hi) as [u [Hu [Eu ->]]]. destruct (Row u Hu) as [L Rw]. destruct (P u ltac:(lia)) as [P1 [P2 _]].
    rewrite (count_row _ n_max (nth u pos []) L P2); auto.
    + rewrite <- Eu, <- P1. reflexivity.
    + intros x Hx. apply (R u x Hu Hx).
  - intros i j Hi Hj Hd. destruct (G i Hi) as [u [Hu [Eu E]]]. rewrite E in Hd. apply Dr in Hd; auto. apply (R u j Hu Hd).
  - intros i k j Hi Hk Hle Hj Hd. destruct (G i Hi) as [u [Hu [Eu E]]]. destruct (G k Hk) as [v [Hv [Ev E']]].
    rewrite E in Hd. rewrite E'. apply Dr; auto. apply Dr in Hd; auto.
    apply (Q u v); auto. split; [|lia].
    destruct (le_lt_dec u v) as [|C]; auto. exfalso.
    pose proof (sorted_nth_lt (uniq drops) v u (uniq_ssorted drops) ltac:(lia)). lia.
Qed.

(* ------------------------------------------------------------------ *)
(** * the loop is the store of Search.v fed with some of the candidates *)
Lemma draw_loop_events a n : forall draws st st', draw_loop a n st draws = Ok st' ->
  exists events, generate same_matrix n st events = Ok st' /\
    forall p x, In (p, x) events -> exists d pdl, In d draws /\
       candidate (a_top a) (a_bottom a) (a_n_max a) (a_drops a) (a_middle a) d = Ok pdl /\
       group_penalty a pdl = Ok p /\ x = format_ply_drops2 pdl.
Proof.
  induction draws as [|d draws IH]; intros st st' H; cbn [draw_loop] in H.
  - exists []; split; [exact H|]. intros p x [].
  - destruct (n <=? length (st_perfect st))%nat eqn:E.
    { exists []. split; [exact H|]. intros p x []. }
    destruct (candidate _ _ _ _ _ d) as [pdl|] eqn:C; cbn [bind] in H; [|discriminate].
    destruct (group_penalty a pdl) as [p|] eqn:Gp; cbn [bind] in H; [|discriminate].
    destruct (record same_matrix n st (p, format_ply_drops2 pdl)) as [s1|] eqn:R; cbn [bind] in H; [|discriminate].
    destruct (IH s1 st' H) as [events [G M]].
    exists ((p, format_ply_drops2 pdl) :: events). split.
    + cbn [generate]. rewrite E, R. exact G.
    + intros q x [Hx|Hx].
      * injection Hx as <- <-. exists d, pdl. repeat split; auto. left; auto.
      * destruct (M q x Hx) as [d' [pdl' [I X]]]. exists d', pdl'. split; [right|]; auto.
Qed.

Lemma finish_layouts timeout n m st r events : finish timeout n m st = Ok r -> generate same_matrix n empty_store events = Ok st ->
  layouts same_matrix [] n events timeout = Ok r.
Proof.
  intros F G. unfold layouts. rewrite G; cbn [bind]. unfold finish in F. destruct timeout; auto.
  destruct (st_perfect st) as [|p0 ps], (st_imperfect st) as [|i0 is]; try discriminate F;
    destruct (n <? m)%nat; try discriminate F; exact F.
Qed.

(** renumbering keeps the drops *)
Lemma renumber_dropped k l j : 0 <= k -> dropped_at (renumber k l) j <-> dropped_at l j.
Proof.
  intros Hk. unfold dropped_at.
  assert (E : map kept (renumber k l) = map kept l) by (apply renumber_kept; auto).
  assert (N : kept (nth j (renumber k l) (-1)) = kept (nth j l (-1))).
  { change (kept (nth j (renumber k l) (-1))) with (kept (nth j (renumber k l) (-1))).
    rewrite <- !(map_nth kept). rewrite E. reflexivity. }
  unfold kept in N. destruct (Z.eqb_spec (nth j (renumber k l) (-1)) (-1)), (Z.eqb_spec (nth j l (-1)) (-1)); cbn in N; try discriminate; tauto.
Qed.
Lemma filter_kept_len : forall l m, map kept l = map kept m ->
  length (filter (fun x => negb (kept x)) l) = length (filter (fun x => negb (kept x)) m).
Proof.
  induction l as [|x l IH]; intros [|y m] K; try discriminate K; auto.
  cbn [map] in K. injection K as K1 K2. cbn [filter]. rewrite K1. destruct (negb (kept y)); cbn [length]; rewrite (IH m K2); reflexivity.
Qed.
Lemma format2_layout n_max drops allowed pdl : guide_layout n_max drops allowed pdl -> guide_layout n_max drops allowed (format_ply_drops2 pdl).
Proof.
  intros [L [R [C [A N]]]]. unfold format_ply_drops2.
  assert (E : forall i, nth i (map (renumber 0) pdl) [] = renumber 0 (nth i pdl [])) by (intros i; exact (map_nth (renumber 0) pdl [] i)).
  split; [rewrite map_length; auto|]. split; [|split; [|split]].
  - intros r Hr. apply in_map_iff in Hr. destruct Hr as [x [<- Hx]]. rewrite renumber_length. apply R; auto.
  - intros i Hi. rewrite E, <- (C i Hi). f_equal. unfold countb.
    assert (K : map kept (renumber 0 (nth i pdl [])) = map kept (nth i pdl [])) by (apply renumber_kept; lia).
    apply filter_kept_len; auto.
  - intros i j Hi Hj Hd. rewrite E in Hd. apply renumber_dropped in Hd; [|lia]. eapply A; eauto.
  - intros i k j Hi Hk Hle Hj Hd. rewrite E in *. apply renumber_dropped in Hd; [|lia]. apply renumber_dropped; [lia|]. exact (N i k j Hi Hk Hle Hj Hd).
Qed.
