(* LampamBound.v - the lamination parameters of the nodes of the beam search lie between -1 and 1. *)
From Coq Require Import Lqa.
From Verif Require Import Base Constraints Moments MomentsProofs Properties_moments Beam BeamProofs Format.
Local Open Scope Z_scope.

Definition within (x : lampam) : Prop := forall k, (-1 <= x k <= 1)%Q.
Definition trig (cos_sin : Z -> nat -> Q) : Prop := forall a k, (-1 <= cos_sin a k <= 1)%Q.

Definition small (b x : Q) : Prop := (- b <= x <= b)%Q.
(** the row of the matrix is bounded by b, at index k *)
Definition row_bound (k : nat) (r : Z -> lampam) (b : Q) : Prop := (0 <= b)%Q /\ forall a, small b (r a k).

Lemma small_mul b x y : small b x -> (-1 <= y <= 1)%Q -> small b (x * y).
Proof.
  intros [X1 X2] [Y1 Y2]. assert (0 <= b)%Q by lra. split.
  - assert (0 <= (b + x) * (1 + y) + (b - x) * (1 - y))%Q as A.
    { apply (Qle_trans _ (0 + 0)); [lra|]. apply Qplus_le_compat; apply Qmult_le_0_compat; lra. }
    assert ((b + x) * (1 + y) + (b - x) * (1 - y) == 2 * (b + x * y))%Q as E by ring. rewrite E in A. lra.
  - assert (0 <= (b - x) * (1 + y) + (b + x) * (1 - y))%Q as A.
    { apply (Qle_trans _ (0 + 0)); [lra|]. apply Qplus_le_compat; apply Qmult_le_0_compat; lra. }
    assert ((b - x) * (1 + y) + (b + x) * (1 - y) == 2 * (b - x * y))%Q as E by ring. rewrite E in A. lra.
Qed.

Definition col (k : nat) (m : mom) : Q :=
  if (k <? 4)%nat then m_area m else if (k <? 8)%nat then m_first m else m_second m.

(** moments and positive moments *)
Lemma moment_small (s : bool) n i k : (1 <= n)%nat -> (s = true -> (i < n_half n)%nat) ->
  (s = true -> (4 <= k < 8)%nat -> False) ->
  small (col k (if s then mom_plus_sym n i else mom_plus_asym n i)) (col k (if s then mom_sym n i else mom_asym n i)).
Proof.
  intros Hn Hi Hk. unfold col. destruct s.
  - destruct (half_pos n i Hn (Hi eq_refl)) as [A B]. pose proof (cube_le _ _ A). unfold small.
    destruct (Nat.ltb_spec k 4); [cbn [mom_plus_sym mom_sym m_area]; lra|].
    destruct (Nat.ltb_spec k 8); [exfalso; apply Hk; auto|]. cbn [mom_plus_sym mom_sym m_second]; lra.
  - destruct (mom_plus_asym_eq n i Hn) as (E1 & E2 & E3). pose proof (pos_step n i Hn) as A. pose proof (cube_le (pos n i) (pos n (S i)) ltac:(lra)) as C.
    set (t := pos n (S i)) in *. set (b := pos n i) in *. unfold small.
    destruct (Nat.ltb_spec k 4).
    { rewrite E1. cbn [mom_asym m_area]. fold t b. assert ((t - b) / (2 # 1) == (1 # 2) * (t - b))%Q as -> by field. lra. }
    destruct (Nat.ltb_spec k 8).
    { unfold mom_plus_asym, mom_asym. fold t b. destruct (Qle_bool 0 (t * b)); cbn [m_first].
      - assert ((sq t - sq b) / (2 # 1) == (1 # 2) * (sq t - sq b))%Q as -> by field.
        assert (Qabs (sq t - sq b) / (2 # 1) == (1 # 2) * Qabs (sq t - sq b))%Q as -> by field.
        pose proof (Qle_Qabs (sq t - sq b)). pose proof (Qle_Qabs (- (sq t - sq b))) as Y. rewrite Qabs_opp in Y. lra.
      - assert ((sq t - sq b) / (2 # 1) == (1 # 2) * (sq t - sq b))%Q as -> by field.
        assert ((Qabs (sq t) + Qabs (sq b)) / (2 # 1) == (1 # 2) * (Qabs (sq t) + Qabs (sq b)))%Q as -> by field.
        pose proof (Qle_Qabs (sq t)). pose proof (Qle_Qabs (sq b)). pose proof (Qle_Qabs (- sq t)) as Y1. pose proof (Qle_Qabs (- sq b)) as Y2. rewrite Qabs_opp in Y1, Y2. lra. }
    rewrite E3. cbn [mom_asym m_second]. fold t b. assert ((cube t - cube b) / (2 # 1) == (1 # 2) * (cube t - cube b))%Q as -> by field. lra.
Qed.

Lemma F2_map2 {A B D} (P : B -> D -> Prop) (f : A -> B) (g : A -> D) l : (forall x, In x l -> P (f x) (g x)) -> Forall2 P (map f l) (map g l).
Proof. induction l as [|x l IH]; cbn; intros H; constructor; auto. Qed.

Lemma half_never n : (n_half n - 1 =? middle_ply_index true n)%nat && Nat.odd n = false.
Proof.
  destruct (Nat.odd n) eqn:O; [|apply andb_false_r]. rewrite andb_true_r. unfold middle_ply_index. rewrite O. cbn [andb].
  apply Nat.eqb_neq. pose proof (n_half_odd n O) as E. apply Nat.odd_spec in O. destruct O as [m ->].
  replace (2 * m + 1 + 1)%nat with ((m + 1) * 2)%nat by lia. rewrite Nat.div_mul by lia.
  unfold n_half. replace (2 * m + 1)%nat with (1 + m * 2)%nat by lia. rewrite Nat.div_add, Nat.mod_add by lia. cbn. lia.
Qed.

Lemma delta_rows sym cs n : delta_lampams sym cs n = map (ply_lampam sym cs) (mom_areas sym n).
Proof.
  unfold delta_lampams. destruct sym; [|reflexivity]. cbn [andb].
  pose proof (half_never n) as H. destruct (Nat.odd n); [|reflexivity]. rewrite andb_true_r in H. rewrite H. reflexivity.
Qed.

Lemma rows_bound sym cs n k : (1 <= n)%nat -> trig cs ->
  Forall2 (row_bound k) (delta_lampams sym cs n) (map (col k) (mom_areas_plus sym n)).
Proof.
  intros Hn T. rewrite delta_rows. destruct (C21_positive_moments sym n Hn) as (_ & P & _).
  assert (N : forall m, In m (mom_areas_plus sym n) -> (0 <= col k m)%Q).
  { intros m Hm. destruct (P m Hm) as (P1 & P2 & P3). unfold col. destruct (k <? 4)%nat; auto. destruct (k <? 8)%nat; auto. }
  assert (G : forall m p a, (0 <= col k p)%Q -> (sym = true -> (4 <= k < 8)%nat -> False) -> small (col k p) (col k m) -> small (col k p) (ply_lampam sym cs m a k)).
  { intros m p a Np Hk S. unfold ply_lampam. unfold col in *. destruct (Nat.ltb_spec k 4); [apply small_mul; auto|].
    destruct (Nat.ltb_spec k 8); [|apply small_mul; auto]. destruct sym; [exfalso; auto|]. apply small_mul; auto. }
  assert (Z : forall m p a, (0 <= col k p)%Q -> sym = true -> (4 <= k < 8)%nat -> small (col k p) (ply_lampam sym cs m a k)).
  { intros m p a Np -> Hk. unfold ply_lampam. destruct (Nat.ltb_spec k 4); [lia|]. destruct (Nat.ltb_spec k 8); [|lia]. unfold small. lra. }
  unfold mom_areas, mom_areas_plus in *. destruct sym.
  - rewrite !map_map. apply F2_map2. intros i Hi. apply in_seq in Hi.
    assert (0 <= col k (mom_plus_sym n i))%Q as Np. { apply N, in_map, in_seq. lia. }
    split; [exact Np|]. intros a. destruct (le_lt_dec 4 k), (le_lt_dec 8 k).
    + apply G; auto; [lia|]. apply (moment_small true n i k Hn); auto; lia.
    + apply Z; auto; lia.
    + lia.
    + apply G; auto; [lia|]. apply (moment_small true n i k Hn); auto; lia.
  - rewrite !map_map. apply F2_map2. intros i Hi.
    assert (0 <= col k (mom_plus_asym n i))%Q as Np. { apply N, in_map, Hi. }
    split; [exact Np|]. intros a. apply G; auto; [discriminate|]. apply (moment_small false n i k Hn); discriminate.
Qed.

Lemma bound_sum sym n k : (1 <= n)%nat -> (sumQ (map (col k) (mom_areas_plus sym n)) == 1)%Q.
Proof.
  intros Hn. destruct (C21_positive_moments sym n Hn) as (_ & _ & S1 & S2 & S3). unfold col.
  destruct (k <? 4)%nat; auto. destruct (k <? 8)%nat; auto.
Qed.

(** the matrix of a layout row is bounded by numbers that do not add up to more *)
Lemma matrix_bound k : forall row rows bs M, Forall2 (row_bound k) rows bs -> lampam_matrix row rows = Ok M ->
  exists ws, Forall2 (row_bound k) M ws /\ (sumQ ws <= sumQ bs)%Q.
Proof.
  induction row as [|x row IH]; intros rows bs M F H; cbn [lampam_matrix] in H.
  - injection H as <-. exists []. split; [constructor|]. clear -F. induction F as [|r b rs bs [Hb _] F IHF]; [cbn; lra|].
    change (sumQ (b :: bs)) with (b + sumQ bs)%Q. lra.
  - destruct (kept x).
    + destruct F as [|r b rs bs Hb F]; [discriminate|]. destruct (lampam_matrix row rs) as [m|] eqn:E; cbn [bind] in H; [|discriminate].
      injection H as <-. destruct (IH rs bs m F E) as (ws & Fw & S). exists (b :: ws). split; [constructor; auto|].
      change (sumQ (b :: bs)) with (b + sumQ bs)%Q. change (sumQ (b :: ws)) with (b + sumQ ws)%Q. lra.
    + destruct (lampam_matrix row rows) as [m|] eqn:E; cbn [bind] in H; [|discriminate]. injection H as <-.
      destruct (IH rows bs m F E) as (ws & Fw & S). exists (0%Q :: ws). split; [constructor; auto|].
      * split; [lra|]. intros a. unfold small, lampam_zero. lra.
      * change (sumQ (0%Q :: ws)) with (0 + sumQ ws)%Q. lra.
Qed.

Lemma sum_distinct : forall (ls : list nat) (ws : list Q), NoDup ls -> (forall w, In w ws -> 0 <= w)%Q ->
  (sumQ (map (fun l => nth l ws 0%Q) ls) <= sumQ ws)%Q.
Proof.
  intros ls ws. revert ls. induction ws as [|w ws IH]; intros ls N P.
  - assert (sumQ (map (fun l => nth l [] 0%Q) ls) == 0)%Q as ->; [|cbn; lra].
    clear. induction ls as [|l ls IH]; [reflexivity|]. cbn [map]. change (nth l [] 0%Q + sumQ (map (fun l => nth l [] 0%Q) ls) == 0)%Q. rewrite IH. destruct l; reflexivity.
  - assert (Q0 : forall ls, NoDup ls -> exists ls', NoDup ls' /\
       (sumQ (map (fun l => nth l (w :: ws) 0%Q) ls) == sumQ (map (fun l => nth l ws 0%Q) ls') + (if existsb (Nat.eqb 0) ls then w else 0))%Q /\ (forall l, In l ls' <-> In (S l) ls)).
    { clear. induction ls as [|l ls IHl]; intros N.
      - exists []. split; [constructor|]. split; [cbn; lra|]. intros l; cbn; tauto.
      - inversion N as [|? ? Hn N']; subst. destruct (IHl N') as (ls' & D & E & I). destruct l as [|l].
        + exists ls'. split; [exact D|]. split.
          * cbn [map nth existsb Nat.eqb orb]. change (w + sumQ (map (fun l => nth l (w :: ws) 0%Q) ls) == sumQ (map (fun l => nth l ws 0%Q) ls') + w)%Q. rewrite E.
            assert (existsb (Nat.eqb 0) ls = false) as ->; [|lra].
            apply not_true_iff_false. intros X. apply existsb_exists in X. destruct X as (y & Hy & Ey). apply Nat.eqb_eq in Ey. subst. contradiction.
          * intros l'. rewrite I. cbn. split; [auto|intros [X|X]; [discriminate|auto]].
        + exists (l :: ls'). split; [constructor; [rewrite I; exact Hn|exact D]|]. split.
          * cbn [map nth existsb Nat.eqb orb]. change (nth l ws 0%Q + sumQ (map (fun l => nth l (w :: ws) 0%Q) ls) == nth l ws 0%Q + sumQ (map (fun l => nth l ws 0%Q) ls') + (if existsb (Nat.eqb 0) ls then w else 0))%Q. rewrite E. lra.
          * intros l'. cbn. rewrite I. split; (intros [X|X]; [left; lia|right; auto]). }
    destruct (Q0 ls N) as (ls' & D & -> & _).
    pose proof (IH ls' D (fun x Hx => P x (or_intror Hx))). pose proof (P w (or_introl eq_refl)).
    change (sumQ (w :: ws)) with (w + sumQ ws)%Q. destruct (existsb (Nat.eqb 0) ls); lra.
Qed.

Lemma search_bound k sym row M ws : Forall2 (row_bound k) M ws -> forall ls h nd b,
  small b (nd_lampam nd k) ->
  small (b + sumQ (map (fun l => nth l ws 0%Q) ls)) (nd_lampam (search sym row M nd ls h) k).
Proof.
  intros F.
  assert (P : forall l, (0 <= nth l ws 0)%Q /\ forall a, small (nth l ws 0%Q) (nth l M (fun _ => lampam_zero) a k)).
  { induction F as [|r w M ws R F IH]; intros l; [destruct l; (split; [cbn; lra|intros a; cbn; unfold small, lampam_zero; lra])|].
    destruct l as [|l]; [exact R|apply IH]. }
  assert (Ps : forall ls, (0 <= sumQ (map (fun l => nth l ws 0%Q) ls))%Q).
  { induction ls as [|l ls IH]; [cbn; lra|]. cbn [map]. change (0 <= nth l ws 0%Q + sumQ (map (fun l => nth l ws 0%Q) ls))%Q. pose proof (proj1 (P l)). lra. }
  induction ls as [|l ls IH]; intros h nd b S.
  - cbn [search map]. destruct h; (unfold small in *; change (sumQ []) with 0%Q; lra).
  - destruct h as [|a h]; cbn [search].
    + pose proof (Ps (l :: ls)). unfold small in *. lra.
    + cbn [map]. change (sumQ (nth l ws 0%Q :: map (fun l => nth l ws 0%Q) ls)) with (nth l ws 0%Q + sumQ (map (fun l => nth l ws 0%Q) ls))%Q.
      assert (S2 : small (b + nth l ws 0%Q) (nd_lampam (branch sym row M nd l a) k)).
      { unfold branch; cbn [nd_lampam]. unfold lampam_add. destruct (P l) as [_ X]. specialize (X a). unfold small in *. lra. }
      specialize (IH h _ _ S2). unfold small in *. lra.
Qed.

(** the nodes of a search over distinct levels *)
Lemma node_within sym cs n row M ls h : (1 <= n)%nat -> trig cs -> NoDup ls ->
  lampam_matrix row (delta_lampams sym cs n) = Ok M -> within (nd_lampam (search sym row M node0 ls h)).
Proof.
  intros Hn T N E k.
  destruct (matrix_bound k row _ _ M (rows_bound sym cs n k Hn T) E) as (ws & F & S). rewrite (bound_sum sym n k Hn) in S.
  assert (small 0 (nd_lampam node0 k)) as Z by (cbn; unfold small, lampam_zero; lra).
  pose proof (search_bound k sym row M ws F ls h node0 0 Z) as B.
  assert (Pw : forall w, In w ws -> (0 <= w)%Q).
  { clear -F. induction F as [|r w M ws R F IH]; intros x Hx; [destruct Hx|]. destruct Hx as [<-|Hx]; [apply R|auto]. }
  pose proof (sum_distinct ls ws N Pw). unfold small in B. lra.
Qed.
