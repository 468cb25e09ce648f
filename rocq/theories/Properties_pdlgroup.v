(* Properties_pdlgroup.v - property theorem C27: random ply-drop layouts of a group. *)
From Verif Require Import Base Uniq Divers Strip Spacing Format FormatProofs PdlTools PdlToolsProofs Search SearchProofs PdlGroup PdlGroupProofs.
Local Open Scope Z_scope.

(* ------------------------------------------------------------------ *)
(** ** Specification *)

(** number of plies dropped in a row of a layout; entry -1 is a dropped ply *)
Definition n_dropped (r : list Z) : Z := count (-1) r.

(** a layout of a group of n_max plies for panels with the given numbers of drops *)
Record group_layout (top bottom : bool) (n_max : nat) (drops : list Z) (pdl : list (list Z)) : Prop := {
  gl_panels : length pdl = length drops;
  gl_width : forall r, In r pdl -> length r = n_max;
  gl_drops : forall i, (i < length drops)%nat -> n_dropped (nth i pdl []) = nth i drops 0;
  (** a ply dropped in a panel is dropped in every panel with as many drops or more *)
  gl_nested : forall i k j, (i < length drops)%nat -> (k < length drops)%nat -> nth i drops 0 <= nth k drops 0 ->
    (j < n_max)%nat -> nth j (nth i pdl []) 0 = -1 -> nth j (nth k pdl []) 0 = -1;
  (** protected plies *)
  gl_top : top = true -> (1 <= n_max)%nat -> forall r, In r pdl -> nth 0 r (-1) <> -1;
  gl_bottom : bottom = true -> (1 <= n_max)%nat -> forall r, In r pdl -> nth (n_max - 1) r (-1) <> -1;
  (** the plies kept in a panel are numbered 0, 1, 2, ... *)
  gl_numbered : forall r, In r pdl -> forall j, (j < n_max)%nat -> nth j r 0 <> -1 ->
    nth j r 0 = Z.of_nat (length (filter (fun x => negb (x =? -1)) (firstn j r))) }.

(** a sample of k distinct elements of a population, as returned by random.sample *)
Definition sample_of (population : nat -> Prop) (k : Z) (s : list nat) : Prop :=
  NoDup s /\ (forall i, In i s -> population i) /\ Z.of_nat (length s) = k.

(** the deletions for decreasing numbers of drops [us], starting from [size] positions *)
Fixpoint deletions_ok (us : list Z) (size : Z) (dels : list (list nat)) : Prop :=
  match us with
  | [] => True
  | u :: rest => sample_of (fun i => Z.of_nat i < size) (size - u) (hd [] dels) /\ deletions_ok rest u (tl dels)
  end.

(** the draws of one iteration, for the distinct numbers of drops in increasing order:
    plies 1 .. n_max-1 may be dropped when the top one is protected, 0 .. n_max-2 when the
    bottom one is *)
Definition draw_ok (top bottom : bool) (n_max : nat) (uniques : list Z) (d : draw) : Prop :=
  match rev uniques with
  | [] => True
  | u :: rest =>
    sample_of (fun i => (top = true -> (1 <= i)%nat) /\ (i < n_max)%nat /\ (bottom = true -> (i < n_max - 1)%nat)) u (first_sample d) /\
    deletions_ok rest u (deletions d)
  end.

(** number of plies that may be dropped *)
Definition droppable (top bottom : bool) (n_max : nat) : Z :=
  Z.max 0 (Z.of_nat n_max - (if top then 1 else 0) - (if bottom then 1 else 0)).

Lemma deletions_valid : forall us size dels, deletions_ok us size dels -> valid_deletions us size dels.
Proof. intros us size dels H. exact H. Qed.
Lemma draw_ok_valid top bottom n_max us d : draw_ok top bottom n_max us d -> valid_draw top bottom n_max us d.
Proof.
  unfold draw_ok, valid_draw. destruct (rev us) as [|u rest]; auto. intros [[A [B C]] D]. split.
  - split; auto. split; auto. intros i Hi. apply B in Hi. unfold first_position, n_positions. destruct top, bottom; lia.
  - apply deletions_valid; auto.
Qed.

Lemma dropped_count r : Z.of_nat (countb (fun x => negb (kept x)) r) = n_dropped r.
Proof.
  unfold n_dropped, count, countb. f_equal. induction r as [|x r IH]; [reflexivity|]. cbn [filter count_occ].
  unfold kept at 1. destruct (Z.eq_dec x (-1)) as [->|N].
  - cbn [Z.eqb negb Pos.eqb length]. rewrite IH; reflexivity.
  - destruct (Z.eqb_spec x (-1)); [congruence|]. cbn [negb]. exact IH.
Qed.

Lemma renumber_value : forall l k j, (j < length l)%nat -> kept (nth j l 0) = true ->
  nth j (renumber k l) 0 = k + Z.of_nat (length (filter kept (firstn j l))).
Proof.
  induction l as [|x l IH]; intros k j Hj K; [cbn in Hj; lia|]. cbn [renumber].
  destruct j as [|j]; cbn [nth firstn filter] in *.
  - rewrite K. cbn. lia.
  - destruct (kept x); cbn [nth length]; rewrite IH by (cbn in Hj; auto; lia); lia.
Qed.

Lemma layout_of_guide top bottom n_max drops pdl :
  guide_layout n_max drops (fun j => (first_position top <= j)%nat /\ (bottom = true -> (S j < n_max)%nat)) pdl ->
  group_layout top bottom n_max drops (format_ply_drops2 pdl).
Proof.
  intros G0. pose proof (format2_layout _ _ _ _ G0) as [L [R [C [A N]]]].
  assert (Row : forall r, In r (format_ply_drops2 pdl) -> exists i, (i < length drops)%nat /\ nth i (format_ply_drops2 pdl) [] = r).
  { intros r Hr. apply (In_nth _ _ []) in Hr. destruct Hr as [i [Hi <-]]. exists i; split; auto; lia. }
  split; auto.
  - intros i Hi. rewrite <- dropped_count. auto.
  - intros i k j Hi Hk Hle Hj Hd.
    assert (W : forall u, (u < length drops)%nat -> length (nth u (format_ply_drops2 pdl) []) = n_max) by (intros u Hu; apply R, nth_In; lia).
    rewrite (nth_indep _ 0 (-1)) by (rewrite W; auto). apply (N i k j Hi Hk Hle Hj).
    unfold dropped_at. rewrite (nth_indep _ (-1) 0) by (rewrite W; auto). exact Hd.
  - intros T Hn r Hr Hd. destruct (Row r Hr) as [i [Hi <-]]. destruct (A i 0%nat Hi ltac:(lia) Hd) as [X _].
    rewrite T in X. cbn in X. lia.
  - intros T Hn r Hr Hd. destruct (Row r Hr) as [i [Hi <-]]. destruct (A i (n_max - 1)%nat Hi ltac:(lia) Hd) as [_ X].
    specialize (X T). lia.
  - intros r Hr j Hj Hk. unfold format_ply_drops2 in Hr. apply in_map_iff in Hr. destruct Hr as [x [<- Hx]].
    destruct G0 as [_ [R0 _]]. pose proof (R0 x Hx) as Lx.
    assert (Kx : kept (nth j x 0) = true).
    { unfold kept. destruct (Z.eqb_spec (nth j x 0) (-1)) as [E|]; auto. exfalso. apply Hk.
      rewrite (nth_indep _ 0 (-1)) by (rewrite renumber_length; lia).
      apply (renumber_dropped 0 x j); [lia|]. unfold dropped_at. rewrite (nth_indep _ (-1) 0) by lia. exact E. }
    rewrite renumber_value by (auto; lia). rewrite Z.add_0_l. f_equal.
    assert (KM : map kept (renumber 0 x) = map kept x) by (apply renumber_kept; lia).
    assert (KF : map kept (firstn j (renumber 0 x)) = map kept (firstn j x)) by (rewrite <- !firstn_map, KM; reflexivity).
    change (fun x0 : Z => negb (x0 =? -1)) with kept.
    exact (eq_sym (countb_kept_map _ _ KF)).
Qed.

(** one iteration always succeeds when the largest number of drops does not exceed the
    number of plies that may be dropped, whatever the random draws, and gives such a layout *)
Theorem C27_candidate_partial : forall top bottom n_max drops d,
  drops <> [] -> (forall u, In u drops -> 0 <= u <= droppable top bottom n_max) ->
  draw_ok top bottom n_max (uniq drops) d ->
  exists pdl, candidate top bottom n_max drops None d = Ok pdl /\ group_layout top bottom n_max drops (format_ply_drops2 pdl).
Proof.
  intros top bottom n_max drops d N B V.
  destruct (candidate_spec top bottom n_max drops d N B (draw_ok_valid _ _ _ _ _ V)) as [pdl [E G]].
  exists pdl; split; auto. apply layout_of_guide; auto.
Qed.
Print Assumptions C27_candidate_partial.

(** every returned layout has the requested drops, is guide-based and keeps the protected
    plies; when the time limit is not reached no two of them are equal and their spacing
    penalty is zero *)
Theorem C27_layouts_partial : forall a n_pdl_max draws timeout r,
  a_middle a = None -> a_drops a <> [] ->
  (forall u, In u (a_drops a) -> 0 <= u <= droppable (a_top a) (a_bottom a) (a_n_max a)) ->
  (forall d, In d draws -> draw_ok (a_top a) (a_bottom a) (a_n_max a) (uniq (a_drops a)) d) ->
  randomly_pdl_guide a n_pdl_max draws timeout = Ok r ->
  (forall pdl, In pdl r -> group_layout (a_top a) (a_bottom a) (a_n_max a) (a_drops a) pdl) /\
  (timeout = true -> length r = n_pdl_max) /\
  (timeout = false -> NoDup r).
Proof.
  intros a n_pdl_max draws timeout r Hm Hd Hb Hv H. unfold randomly_pdl_guide in H.
  set (n := n_layouts (a_n_max a) (uniq (a_drops a)) n_pdl_max) in *.
  destruct (draw_loop a n empty_store draws) as [st|] eqn:DL; cbn [bind] in H; [|discriminate].
  destruct (draw_loop_events a n draws empty_store st DL) as [events [G M]].
  destruct (layouts_members same_matrix [] n events timeout r (finish_layouts timeout n n_pdl_max st r events H G)) as [A [B C]].
  split; [|split].
  - intros pdl Hp. destruct (A pdl Hp) as [p Hx]. destruct (M p pdl Hx) as [d [c [Id [Ec [_ ->]]]]].
    rewrite Hm in Ec. destruct (C27_candidate_partial _ _ _ _ d Hd Hb (Hv d Id)) as [c' [Ec' L]]. rewrite Ec in Ec'. injection Ec' as <-. exact L.
  - intros T. rewrite (B T). subst timeout. unfold finish in H.
    assert (E : (n <? n_pdl_max)%nat = false).
    { destruct (st_perfect st), (st_imperfect st); try discriminate H; destruct (n <? n_pdl_max)%nat; auto; discriminate H. }
    apply Nat.ltb_ge in E. unfold n, n_layouts in *. lia.
  - intros T. destruct (C T) as [D _]. clear - D.
    induction r as [|x r IH]; constructor.
    + intros I. destruct D as [D _]. apply D in I. unfold same_matrix in I. destruct (list_eq_dec _ x x); congruence.
    + apply IH. apply D.
Qed.
Print Assumptions C27_layouts_partial.

(** too many drops for the plies that may be dropped: the sampling raises ValueError *)
Theorem C27_too_many_drops_raises : forall a n_pdl_max d draws timeout u,
  (forall x, In x (a_drops a) -> x <= u) -> In u (a_drops a) -> droppable (a_top a) (a_bottom a) (a_n_max a) < u ->
  u <= Z.of_nat (a_n_max a) -> (forall x, In x (a_drops a) -> 0 <= x) -> (1 <= n_pdl_max)%nat ->
  randomly_pdl_guide a n_pdl_max (d :: draws) timeout = Err ValueError.
Proof.
  intros a m d draws timeout u Hmax Hu Hlt Hle Hpos Hm. unfold randomly_pdl_guide. cbn [draw_loop].
  assert (B1 : forall n k, (k <= n)%nat -> (1 <= binom n k)%nat).
  { induction n as [|n IH]; intros [|k] Hk; cbn; try lia. specialize (IH k ltac:(lia)). lia. }
  assert (P : (1 <= n_layouts (a_n_max a) (uniq (a_drops a)) m)%nat).
  { unfold n_layouts. apply Nat.min_glb; auto.
    assert (Q : forall l, (forall x, In x l -> 0 <= x <= u) -> (1 <= fold_right (fun v p => (comb (a_n_max a) v * p)%nat) 1%nat l)%nat).
    { induction l as [|v l IH]; intros Hl; cbn [fold_right]; auto. specialize (IH ltac:(intros; apply Hl; right; auto)).
      specialize (Hl v ltac:(left; auto)). 
      assert (K : (1 <= comb (a_n_max a) v)%nat) by (unfold comb; destruct (Z.ltb_spec v 0); [lia|]; apply B1; lia). nia. }
    apply Q. intros x Hx. rewrite uniq_in in Hx. split; auto. }
  cbn [st_perfect empty_store length].
  destruct (n_layouts (a_n_max a) (uniq (a_drops a)) m) as [|n] eqn:En; [lia|]. cbn [Nat.leb].
  unfold candidate, positions.
  destruct (rev (uniq (a_drops a))) as [|v rest] eqn:E.
  - apply (f_equal (@rev Z)) in E. rewrite rev_involutive in E. cbn in E. rewrite <- (uniq_in (a_drops a)) in Hu. rewrite E in Hu. destruct Hu.
  - assert (v = u).
    { apply Z.le_antisymm.
      - apply Hmax. apply uniq_in, in_rev. rewrite E; left; auto.
      - pose proof (ssorted_rev Z.lt _ (uniq_ssorted (a_drops a))) as S. rewrite E in S. inversion S as [|? ? S1 S2]; subst.
        assert (I : In u (v :: rest)) by (rewrite <- E; apply in_rev; rewrite rev_involutive; apply uniq_in; auto).
        destruct I as [->|I]; [lia|]. rewrite Forall_forall in S2. specialize (S2 u I). cbv beta in S2. lia. }
    subst v. unfold sample. assert (X : n_positions (a_top a) (a_bottom a) (Z.of_nat (a_n_max a)) = droppable (a_top a) (a_bottom a) (a_n_max a)) by reflexivity.
    rewrite X. destruct (Z.ltb_spec (droppable (a_top a) (a_bottom a) (a_n_max a)) u); [|lia].
    rewrite Bool.orb_true_r. reflexivity.
Qed.
Print Assumptions C27_too_many_drops_raises.

(** with a middle ply in the last group the code raises unless the number of distinct
    numbers of drops is the number of panels minus one *)
Theorem C27_middle_ply_raises : forall a m n_pdl_max d draws timeout,
  a_middle a = Some m -> length m = length (a_drops a) -> m <> [] ->
  (forall u, In u (a_drops a) -> 0 <= u <= droppable (a_top a) (a_bottom a) (a_n_max a)) ->
  draw_ok (a_top a) (a_bottom a) (a_n_max a) (uniq (a_drops a)) d -> (1 <= n_pdl_max)%nat ->
  length (uniq (a_drops a)) <> (length (a_drops a) - 1)%nat ->
  randomly_pdl_guide a n_pdl_max (d :: draws) timeout = Err ValueError.
Proof.
  intros a m n_pdl_max d draws timeout Hm Lm Nm Hb Hv Hn Hl.
  assert (Hd : a_drops a <> []) by (intros E; apply Nm; apply length_zero_iff_nil; rewrite Lm, E; reflexivity).
  unfold randomly_pdl_guide. cbn [draw_loop].
  assert (B1 : forall n k, (k <= n)%nat -> (1 <= binom n k)%nat).
  { induction n as [|n IH]; intros [|k] Hk; cbn; try lia. specialize (IH k ltac:(lia)). lia. }
  assert (P : (1 <= n_layouts (a_n_max a) (uniq (a_drops a)) n_pdl_max)%nat).
  { unfold n_layouts. apply Nat.min_glb; auto.
    assert (Q : forall l, (forall x, In x l -> In x (a_drops a)) -> (1 <= fold_right (fun v p => (comb (a_n_max a) v * p)%nat) 1%nat l)%nat).
    { induction l as [|v l IH]; intros Hl'; cbn [fold_right]; auto. specialize (IH ltac:(intros; apply Hl'; right; auto)).
      specialize (Hb v (Hl' v ltac:(left; auto))). 
      unfold droppable in Hb.
      assert (K : (1 <= comb (a_n_max a) v)%nat) by (unfold comb; destruct (Z.ltb_spec v 0); [lia|]; apply B1; destruct (a_top a), (a_bottom a); lia). nia. }
    apply Q. intros x Hx. rewrite uniq_in in Hx. auto. }
  cbn [st_perfect empty_store length].
  destruct (n_layouts (a_n_max a) (uniq (a_drops a)) n_pdl_max) as [|n] eqn:En; [lia|]. cbn [Nat.leb].
  unfold candidate. rewrite Hm.
  assert (Ne' : uniq (a_drops a) <> []).
  { destruct (a_drops a) as [|x l]; [congruence|]. intros E. assert (I : In x (uniq (x :: l))) by (apply uniq_in; left; auto). rewrite E in I; destruct I. }
  destruct (positions_spec (a_top a) (a_bottom a) (a_n_max a) (uniq (a_drops a)) d Ne' (uniq_ssorted _)) as [pos [Ep [Lp [Pp _]]]].
  { intros u Hu. exact (Hb u (proj1 (uniq_in _ u) Hu)). }
  { apply draw_ok_valid; auto. }
  rewrite Ep; cbn [bind].
  destruct (format_ply_drops_spec (a_n_max a) (map (map Z.of_nat) pos)) as [pdl [Ef [Lf _]]].
  { intros l e Hl' He. apply in_map_iff in Hl'. destruct Hl' as [p [<- Hp]]. apply in_map_iff in He. destruct He as [x [<- Hx]].
    apply (In_nth _ _ []) in Hp. destruct Hp as [i [Hi <-]]. destruct (Pp i ltac:(lia)) as [_ [_ P3]]. apply P3 in Hx.
    unfold n_positions, first_position in Hx. destruct (a_top a), (a_bottom a); lia. }
  rewrite Ef; cbn [bind]. unfold add_middle, middle_column. rewrite map_length.
  assert (Lr : length (removelast m) = (length m - 1)%nat).
  { destruct (exists_last Nm) as [l [x ->]]. rewrite removelast_last, app_length. cbn; lia. }
  rewrite Lr, Lf, map_length, Lp. destruct (Nat.eqb_spec (length m - 1) (length (uniq (a_drops a)))); [lia|]. reflexivity.
Qed.
Print Assumptions C27_middle_ply_raises.

(** and when it does not raise, the middle ply is dropped in the panels that have one and
    kept in those that have none: two panels with the same number of drops, both with a
    middle ply; neither keeps it *)
Theorem C27_middle_ply_inverted_refuted : ~ (forall n_max drops m d pdl,
  length m = length drops -> draw_ok false false n_max (uniq drops) d ->
  candidate false false n_max drops (Some m) d = Ok pdl ->
  forall i, (i < length drops)%nat -> nth i m 0 <> 0 -> nth n_max (nth i pdl []) 0 <> -1).
Proof.
  intros H.
  apply (H 2%nat [0; 0] [3; 3] {| first_sample := []; deletions := [] |} [[0; 1; -1]; [0; 1; -1]] eq_refl) with (i := 0%nat).
  - cbn. split; auto. split; [constructor|]. split; [intros i []|reflexivity].
  - vm_compute; reflexivity.
  - cbn; lia.
  - cbn; lia.
  - reflexivity.
Qed.
Print Assumptions C27_middle_ply_inverted_refuted.

Example C27_example :
  let d := {| first_sample := [2; 1]%nat; deletions := [[0]; [0]]%nat |} in
  draw_ok true false 4 (uniq [1; 2; 0; 1]) d /\
  candidate true false 4 [1; 2; 0; 1] None d = Ok [[0; -1; 2; 3]; [0; -1; -1; 3]; [0; 1; 2; 3]; [0; -1; 2; 3]].
Proof.
  split; [|vm_compute; reflexivity]. cbn. unfold sample_of. cbn.
  repeat match goal with |- _ /\ _ => split end; try exact I; try reflexivity;
    try (intros i Hi; repeat destruct Hi as [<-|Hi]; try destruct Hi; repeat split; intros; (lia || discriminate));
    repeat (constructor; [cbn; intuition lia|]); try constructor.
Qed.
