(* StripWeights.v - lemmas about boundary weights and panel weightings of Strip.v *)
From Verif Require Import Base Uniq Divers DiversProofs Spacing SpacingProofs Strip StripProofs StripGraph.
From Coq Require Import Lqa ListDec Qfield.
Local Open Scope Z_scope.

(* ------------------------------------------------------------------ *)
(** * Specification *)

(** boundary [b] joins a panel with [n] plies and a panel with [m] plies *)
Definition joins (ps : list panel) (n m : Z) (b : nat * nat) : bool :=
  (((plies_at ps (fst b) =? n) && (plies_at ps (snd b) =? m)) ||
   ((plies_at ps (fst b) =? m) && (plies_at ps (snd b) =? n)))%bool.

(** the weight a dictionary gives to a boundary *)
Definition weight_of (w : dict) (b : nat * nat) : Q :=
  match lookup w b with Ok x => x | Err _ => 0%Q end.

(** total weighting of the panels of the structure with [n] plies *)
Definition total_weighting (ps : list panel) (n : Z) : Q :=
  sumQ (map p_weighting (filter (fun p => p_nplies p =? n) ps)).

(* ------------------------------------------------------------------ *)
(** * Dictionaries *)
Lemma lookup_dset_eq d k v : lookup (dset d k v) k = Ok v.
Proof.
  unfold lookup; induction d as [|e t IH]; cbn [dset find].
  - cbn [fst]; rewrite key_eqb_refl; auto.
  - destruct (key_eqb (fst e) k) eqn:E; cbn [find fst]; [rewrite key_eqb_refl; auto|].
    rewrite E; auto.
Qed.
Lemma lookup_dset_neq d k k' v : k <> k' -> lookup (dset d k v) k' = lookup d k'.
Proof.
  intros Hn; unfold lookup; induction d as [|e t IH]; cbn [dset find].
  - cbn [fst]; apply key_eqb_neq in Hn; rewrite Hn; auto.
  - destruct (key_eqb (fst e) k) eqn:E; cbn [find fst].
    + apply key_eqb_eq in E; subst k.
      rewrite (proj2 (key_eqb_neq _ _) Hn). auto.
    + destruct (key_eqb (fst e) k'); auto.
Qed.
Lemma has_key_lookup d k : has_key d k = is_ok (lookup d k).
Proof.
  unfold has_key, lookup; induction d as [|e t IH]; cbn [existsb find]; auto.
  destruct (key_eqb (fst e) k); auto.
Qed.
Lemma lookup_cases d k : (exists x, lookup d k = Ok x) \/ lookup d k = Err KeyError.
Proof. unfold lookup; destruct (find _ d); eauto. Qed.
Lemma lookup_nil k : lookup [] k = Err KeyError. Proof. reflexivity. Qed.

(* ------------------------------------------------------------------ *)
(** * C16: aggregation *)
Lemma strip_weights_gen guide w : forall bs d,
  (forall b, In b bs -> exists x, lookup w b = Ok x) ->
  exists r, strip_weights guide w bs d = Ok r /\
    forall s,
      let here := filter (fun b => key_eqb (to_strip guide b) s && negb (Nat.eqb (fst s) (snd s)))%bool bs in
      (here = [] -> lookup r s = lookup d s) /\
      (here <> [] -> exists x, lookup r s = Ok x /\
         x == weight_of d s + sumQ (map (weight_of w) here))%Q.
Proof.
  induction bs as [|b t IH]; intros d Hw; cbn [strip_weights].
  - exists d; split; auto; intros s; cbn; split; congruence.
  - destruct (Hw b (or_introl eq_refl)) as [x Ex]; rewrite Ex; cbn [bind].
    assert (Hw' : forall b, In b t -> exists x, lookup w b = Ok x) by (intros; apply Hw; right; auto).
    cbn zeta. set (s0 := to_strip guide b) in *.
    destruct (Nat.eqb (fst s0) (snd s0)) eqn:Es.
    + destruct (IH d Hw') as [r [-> Hr]]; exists r; split; auto; intros s; cbn [filter]; cbn zeta.
      fold s0.
      assert ((key_eqb s0 s && negb (Nat.eqb (fst s) (snd s)))%bool = false) as ->; [|apply Hr].
      destruct (key_eqb s0 s) eqn:K; auto; apply key_eqb_eq in K; subst s; rewrite Es; auto.
    + assert (G : forall v, (v == weight_of d s0 + x)%Q ->
        exists r, strip_weights guide w t (dset d s0 v) = Ok r /\
    forall s,
      let here := filter (fun b => key_eqb (to_strip guide b) s && negb (Nat.eqb (fst s) (snd s)))%bool (b :: t) in
      (here = [] -> lookup r s = lookup d s) /\
      (here <> [] -> exists x, lookup r s = Ok x /\
         x == weight_of d s + sumQ (map (weight_of w) here))%Q).
      { intros v Hv; destruct (IH (dset d s0 v) Hw') as [r [-> Hr]]; exists r; split; auto.
        intros s; cbn [filter]; cbn zeta; fold s0.
        destruct (key_eqb s0 s) eqn:K; cbn [andb].
        - apply key_eqb_eq in K; subst s; rewrite Es; cbn [negb].
          split; [congruence|]; intros _.
          specialize (Hr s0); cbn zeta in Hr; rewrite Es in Hr; cbn [negb] in Hr.
          set (h := filter _ t) in *; destruct Hr as [R1 R2].
          cbn [map]; rewrite sumQ_cons; unfold weight_of at 2; rewrite Ex.
          destruct h as [|h0 ht] eqn:Eh.
          + rewrite R1, lookup_dset_eq by auto; exists v; split; auto; cbn; lra.
          + destruct R2 as [y [Y1 Y2]]; [discriminate|]; exists y; split; auto.
            unfold weight_of at 1 in Y2; rewrite lookup_dset_eq in Y2; lra.
        - apply key_eqb_neq in K; specialize (Hr s); cbn zeta in Hr.
          unfold weight_of at 1 in Hr; rewrite lookup_dset_neq in Hr by auto; exact Hr. }
      rewrite has_key_lookup; destruct (lookup_cases d s0) as [[y Ey]|Ey]; rewrite Ey; cbn [is_ok bind].
      * apply G; unfold weight_of; rewrite Ey; reflexivity.
      * apply G; unfold weight_of; rewrite Ey; lra.
Qed.

Section C16.
Variable ps : list panel.

Lemma to_strip_joins k l b : (k < l)%nat -> (l < length (strip_plies ps))%nat ->
  (fst b < length ps)%nat -> (snd b < length ps)%nat ->
  key_eqb (to_strip (ind_panels_guide ps) b) (k, l) =
  joins ps (nth k (strip_plies ps) 0) (nth l (strip_plies ps) 0) b.
Proof.
  intros Hk Hl H1 H2.
  destruct (guide_spec ps _ H1) as [A1 A2]; destruct (guide_spec ps _ H2) as [B1 B2]; cbn zeta in *.
  unfold to_strip, joins; rewrite <- A2, <- B2.
  set (a := nth (fst b) (ind_panels_guide ps) 0%nat) in *.
  set (c := nth (snd b) (ind_panels_guide ps) 0%nat) in *.
  assert (Hinj : forall i j, (i < length (strip_plies ps))%nat -> (j < length (strip_plies ps))%nat ->
    (nth i (strip_plies ps) 0 =? nth j (strip_plies ps) 0) = Nat.eqb i j).
  { intros i j Hi Hj; destruct (Nat.eqb_spec i j) as [->|Hn]; [apply Z.eqb_refl|].
    apply Z.eqb_neq; intros E; apply Hn.
    apply (proj1 (NoDup_nth (strip_plies ps) 0) (uniq_nodup _)); auto. }
  rewrite !Hinj by lia. unfold psort; cbn [fst snd].
  destruct (Nat.leb_spec a c); unfold key_eqb; cbn [fst snd];
    destruct (Nat.eqb_spec a k), (Nat.eqb_spec c l), (Nat.eqb_spec a l), (Nat.eqb_spec c k); cbn; auto; lia.
Qed.

Lemma strip_weights_spec w bs :
  (forall b, In b bs -> (fst b < length ps)%nat /\ (snd b < length ps)%nat) ->
  (forall b, In b bs -> exists x, lookup w b = Ok x) ->
  exists d, strip_weights (ind_panels_guide ps) w bs [] = Ok d /\
    (forall k l, (k < l)%nat -> (l < length (strip_plies ps))%nat ->
      let here := filter (joins ps (nth k (strip_plies ps) 0) (nth l (strip_plies ps) 0)) bs in
      (here = [] -> lookup d (k, l) = Err KeyError) /\
      (here <> [] -> exists x, lookup d (k, l) = Ok x /\ x == sumQ (map (weight_of w) here))%Q) /\
    (forall k l x, lookup d (k, l) = Ok x -> (k < l < length (strip_plies ps))%nat).
Proof.
  intros Hr Hw; destruct (strip_weights_gen (ind_panels_guide ps) w bs [] Hw) as [d [E H]].
  exists d; split; auto; split.
  - intros k l Hk Hl; specialize (H (k, l)); cbn zeta in *.
    assert (filter (joins ps (nth k (strip_plies ps) 0) (nth l (strip_plies ps) 0)) bs =
      filter (fun b => key_eqb (to_strip (ind_panels_guide ps) b) (k, l) &&
                       negb (Nat.eqb (fst (k, l)) (snd (k, l))))%bool bs) as ->.
    { apply filter_ext_in; intros b Hb; destruct (Hr b Hb).
      rewrite <- to_strip_joins by auto. cbn [fst snd].
      destruct (Nat.eqb_spec k l); [lia|]; cbn; rewrite andb_true_r; auto. }
    destruct H as [H1 H2]; split; auto.
    intros X; destruct (H2 X) as [x [X1 X2]]; exists x; split; auto.
    unfold weight_of at 1 in X2; rewrite lookup_nil in X2; lra.
  - intros k l x Ex; specialize (H (k, l)); cbn zeta in H; destruct H as [H1 H2].
    set (f := fun b => (key_eqb (to_strip (ind_panels_guide ps) b) (k, l) && negb (Nat.eqb (fst (k, l)) (snd (k, l))))%bool) in *.
    destruct (filter f bs) as [|b t] eqn:Ef.
    + rewrite H1 in Ex by auto; discriminate.
    + assert (Hb : In b (filter f bs)) by (rewrite Ef; left; auto).
      apply filter_In in Hb; destruct Hb as [Hb X]; unfold f in X; apply andb_true_iff in X.
      destruct X as [X1 X2]; apply key_eqb_eq in X1; cbn [fst snd] in X2.
      destruct (Nat.eqb_spec k l) as [|Hne]; [discriminate|].
      destruct (Hr b Hb) as [R1 R2].
      destruct (guide_spec ps _ R1) as [A1 _]; destruct (guide_spec ps _ R2) as [B1 _]; cbn zeta in *.
      pose proof (psort_le (nth (fst b) (ind_panels_guide ps) 0%nat, nth (snd b) (ind_panels_guide ps) 0%nat)) as L.
      fold (to_strip (ind_panels_guide ps) b) in L; rewrite X1 in L; cbn [fst snd] in L.
      unfold to_strip in X1; destruct (psort_cases (nth (fst b) (ind_panels_guide ps) 0%nat, nth (snd b) (ind_panels_guide ps) 0%nat))
        as [[Es _]|[Es _]]; rewrite Es in X1; unfold pflip in X1; cbn [fst snd] in X1; injection X1 as X1 X1'; lia.
Qed.

Lemma strip_boundaries_gen guide : forall bs acc,
  NoDup acc ->
  NoDup (strip_boundaries guide bs acc) /\
  forall s, In s (strip_boundaries guide bs acc) <->
    In s acc \/ (fst s <> snd s /\ exists b, In b bs /\ to_strip guide b = s).
Proof.
  induction bs as [|b t IH]; intros acc Hn; cbn [strip_boundaries].
  - split; auto; intros s; split; auto; intros [|[_ [b [[] _]]]]; auto.
  - cbn zeta; set (s0 := to_strip guide b).
    destruct (existsb (key_eqb s0) acc) eqn:E1; cbn [negb andb].
    + destruct (IH acc Hn) as [H1 H2]; split; auto; intros s; rewrite H2; split.
      * intros [|[X [b' [Y Z']]]]; auto; right; split; auto; exists b'; split; auto; right; auto.
      * intros [|[X [b' [[<-|Y] Z']]]]; auto.
        -- left; apply existsb_exists in E1; destruct E1 as [y [Y1 Y2]]; apply key_eqb_eq in Y2.
           fold s0 in Z'; congruence.
        -- right; split; auto; exists b'; auto.
    + destruct (Nat.eqb_spec (fst s0) (snd s0)) as [Hd|Hd]; cbn [negb].
      * destruct (IH acc Hn) as [H1 H2]; split; auto; intros s; rewrite H2; split.
        -- intros [|[X [b' [Y Z']]]]; auto; right; split; auto; exists b'; split; auto; right; auto.
        -- intros [|[X [b' [[<-|Y] Z']]]]; auto.
           ++ exfalso; apply X; fold s0 in Z'; subst s; auto.
           ++ right; split; auto; exists b'; auto.
      * assert (Hni : ~ In s0 acc).
        { intros X; assert (existsb (key_eqb s0) acc = true); [|congruence].
          apply existsb_exists; exists s0; split; auto; apply key_eqb_refl. }
        assert (Hn' : NoDup (acc ++ [s0])).
        { apply (Permutation_NoDup (l := s0 :: acc)); [apply Permutation_cons_append|constructor; auto]. }
        destruct (IH _ Hn') as [H1 H2]; split; auto; intros s; rewrite H2, in_app_iff; split.
        -- intros [[|[<-|[]]]|[X [b' [Y Z']]]]; auto; right; split; auto.
           ++ exists b; split; auto; left; auto.
           ++ exists b'; split; auto; right; auto.
        -- intros [|[X [b' [[<-|Y] Z']]]]; auto.
           ++ left; right; left; exact Z'.
           ++ right; split; auto; exists b'; auto.
Qed.

Lemma strip_boundaries_spec bs :
  (forall b, In b bs -> (fst b < length ps)%nat /\ (snd b < length ps)%nat) ->
  NoDup (strip_boundaries (ind_panels_guide ps) bs []) /\
  forall k l, In (k, l) (strip_boundaries (ind_panels_guide ps) bs []) <->
    (k < l < length (strip_plies ps))%nat /\
    exists b, In b bs /\ joins ps (nth k (strip_plies ps) 0) (nth l (strip_plies ps) 0) b = true.
Proof.
  intros Hr; destruct (strip_boundaries_gen (ind_panels_guide ps) bs [] (NoDup_nil _)) as [H1 H2].
  split; auto; intros k l; rewrite H2; cbn [In fst snd]; split.
  - intros [[]|[Hne [b [Hb E]]]]; destruct (Hr b Hb) as [R1 R2].
    assert (L : (k <= l)%nat).
    { pose proof (psort_le (nth (fst b) (ind_panels_guide ps) 0%nat, nth (snd b) (ind_panels_guide ps) 0%nat)) as L.
      fold (to_strip (ind_panels_guide ps) b) in L; rewrite E in L; exact L. }
    assert (B : (l < length (strip_plies ps))%nat).
    { destruct (guide_spec ps _ R1) as [A1 _]; destruct (guide_spec ps _ R2) as [B1 _]; cbn zeta in *.
      unfold to_strip in E.
      destruct (psort_cases (nth (fst b) (ind_panels_guide ps) 0%nat, nth (snd b) (ind_panels_guide ps) 0%nat))
        as [[Es _]|[Es _]]; rewrite Es in E; unfold pflip in E; cbn [fst snd] in E;
        pose proof (f_equal snd E) as E2; cbn in E2; lia. }
    split; [lia|]; exists b; split; auto.
    rewrite <- to_strip_joins by lia; apply key_eqb_eq; auto.
  - intros [[L B] [b [Hb J]]]; right; split; [lia|]; exists b; split; auto.
    destruct (Hr b Hb); rewrite <- to_strip_joins in J by auto; apply key_eqb_eq; auto.
Qed.

(** default weights *)
Lemma default_weights bs : (forall b, In b bs -> (fst b <= snd b)%nat) ->
  exists w, mp_boundary_weights ps bs None = Ok w /\ forall b, In b bs -> lookup w b = Ok 1%Q.
Proof.
  intros Hs; eexists; split; [reflexivity|].
  assert (G : forall bs d, (forall b, In b bs -> (fst b <= snd b)%nat) -> forall b,
    (In b bs \/ lookup d b = Ok 1%Q) ->
    lookup (fold_left (fun d b => dset d (psort b) 1%Q) bs d) b = Ok 1%Q); [|intros b Hb; apply G; auto].
  clear bs Hs; induction bs as [|a t IH]; intros d Hs b H; cbn [fold_left].
  - destruct H as [[]|H]; auto.
  - apply IH; [intros; apply Hs; right; auto|].
    rewrite psort_sorted by (apply Hs; left; auto).
    destruct H as [[<-|H]|H]; auto; [right; apply lookup_dset_eq|].
    destruct (key_eqb a b) eqn:E; [apply key_eqb_eq in E; subst; right; apply lookup_dset_eq|].
    right; rewrite lookup_dset_neq by (apply key_eqb_neq; auto); auto.
Qed.

(** weights given by the user under ascending ID pairs *)
Lemma user_weights bs u (f : nat * nat -> Q) :
  NoDup bs ->
  (forall b, In b bs -> (fst b <= snd b)%nat) ->
  (forall e, In e u -> 0 <= snd e)%Q ->
  (length bs <= length u)%nat ->
  (forall b, In b bs -> ~ (f b == 0)%Q /\
     ulookup u (zsort (id_of ps (fst b)) (id_of ps (snd b))) = Some (f b)) ->
  exists w, mp_boundary_weights ps bs (Some u) = Ok w /\ forall b, In b bs -> lookup w b = Ok (f b).
Proof.
  intros Hn Hs Hp Hl Hf; unfold mp_boundary_weights.
  assert (existsb (fun e => negb (Qle_bool 0 (snd e))) u = false) as ->.
  { apply Bool.not_true_iff_false; intros X; apply existsb_exists in X; destruct X as [e [He X]].
    apply Hp in He; apply Qle_bool_iff in He; rewrite He in X; discriminate. }
  destruct (Nat.ltb_spec (length u) (length bs)) as [|_]; [lia|]; cbn [guard bind].
  assert (G : forall bs d, NoDup bs -> (forall b, In b bs -> (fst b <= snd b)%nat) ->
     (forall b, In b bs -> ~ (f b == 0)%Q /\
       ulookup u (zsort (id_of ps (fst b)) (id_of ps (snd b))) = Some (f b)) ->
     exists w, store_weights ps u d bs = Ok w /\ (forall b, In b bs -> lookup w b = Ok (f b)) /\
       (forall b, ~ In b bs -> lookup w b = lookup d b)).
  { clear; induction bs as [|a t IH]; intros d Hn Hs Hf; cbn [store_weights].
    - exists d; split; auto; split; auto; intros b [].
    - unfold store_weight; cbn zeta; destruct (Hf a (or_introl eq_refl)) as [N E].
      rewrite E; cbn [truthy]. destruct (Qeq_bool (f a) 0) eqn:Q0; [apply Qeq_bool_iff in Q0; tauto|].
      cbn [bind]. inversion Hn; subst.
      destruct (IH (dset d (psort a) (f a)) H2) as [w [-> [W1 W2]]];
        [intros; apply Hs; right; auto | intros; apply Hf; right; auto|].
      rewrite psort_sorted in W2 by (apply Hs; left; auto).
      exists w; split; auto; split.
      + intros b [<-|Hb]; auto; rewrite W2 by auto; apply lookup_dset_eq.
      + intros b Hb; rewrite W2 by (intros X; apply Hb; right; auto).
        apply lookup_dset_neq; intros ->; apply Hb; left; auto. }
  destruct (G bs [] Hn Hs Hf) as [w [E [W _]]]; eauto.
Qed.
End C16.

(* ------------------------------------------------------------------ *)
(** * C17 *)
Definition picked (guide : list nat) (k i : nat) (reps : list panel) : list Q :=
  map (fun jp => if Nat.eqb (nth (fst jp) guide 0%nat) k then p_weighting (snd jp) else 0%Q)
      (combine (seq i (length reps)) reps).

Lemma addq_nth l i x k : (i < length l)%nat ->
  (nth k (addq l i x) 0 == nth k l 0 + (if Nat.eqb i k then x else 0))%Q.
Proof.
  intros Hi; unfold addq; rewrite nth_upd; destruct (Nat.eqb_spec i k) as [->|Hn]; cbn [andb].
  - destruct (Nat.ltb_spec k (length l)); [reflexivity | lia].
  - lra.
Qed.

Lemma strip_weightings_gen guide k : forall reps i acc,
  (forall j, (j < length reps)%nat -> (nth (i + j) guide 0 < length acc)%nat) ->
  length (strip_weightings guide i reps acc) = length acc /\
  (nth k (strip_weightings guide i reps acc) 0 == nth k acc 0 + sumQ (picked guide k i reps))%Q.
Proof.
  induction reps as [|p t IH]; intros i acc H; cbn [strip_weightings].
  - split; auto; cbn; lra.
  - assert (L : length (addq acc (nth i guide 0%nat) (p_weighting p)) = length acc)
      by (unfold addq; apply upd_length).
    destruct (IH (S i) (addq acc (nth i guide 0%nat) (p_weighting p))) as [H1 H2].
    { intros j Hj; rewrite L; specialize (H (S j)); rewrite Nat.add_succ_r in H; apply H; cbn; lia. }
    split; [congruence|]. rewrite H2. unfold picked; cbn [length seq combine map fst snd].
    rewrite sumQ_cons, addq_nth; [lra|]. specialize (H 0%nat); rewrite Nat.add_0_r in H; apply H; cbn; lia.
Qed.

Lemma strip_panels_length ps : length (strip_panels ps) = length (strip_plies ps).
Proof. unfold strip_panels; rewrite map_length; apply reduc_length. Qed.

Lemma strip_le ps : (length (strip_plies ps) <= length ps)%nat.
Proof.
  unfold strip_plies. replace (length ps) with (length (n_plies_of ps)) by apply map_length.
  apply uniq_length_le.
Qed.

(** the weighting of strip panel k is the sum of the weightings of those
    representative panels whose POSITION IN THE STRIP, read as a panel number of
    the structure, is mapped to k *)
Lemma actual_weightings_general ps k :
  (nth k (actual_panel_weightings ps) 0 ==
   sumQ (picked (ind_panels_guide ps) k 0 (strip_panels ps)))%Q.
Proof.
  unfold actual_panel_weightings.
  destruct (strip_weightings_gen (ind_panels_guide ps) k (strip_panels ps) 0
              (repeat 0%Q (length (strip_plies ps)))) as [_ ->].
  - intros j Hj; rewrite repeat_length; cbn [Nat.add].
    rewrite strip_panels_length in Hj. pose proof (strip_le ps).
    apply (guide_spec ps j); lia.
  - assert (nth k (repeat 0%Q (length (strip_plies ps))) 0%Q = 0%Q) as ->; [|lra].
    destruct (Nat.lt_ge_cases k (length (strip_plies ps))).
    + apply nth_repeat.
    + apply nth_overflow; rewrite repeat_length; auto.
Qed.

Lemma strip_increasing ps : StronglySorted Z.lt (n_plies_of ps) -> strip_plies ps = n_plies_of ps.
Proof.
  intros Hs; apply ssorted_ext; auto; [apply uniq_ssorted | intros x; apply uniq_in].
Qed.

Lemma guide_increasing ps i : StronglySorted Z.lt (n_plies_of ps) -> (i < length ps)%nat ->
  nth i (ind_panels_guide ps) 0%nat = i.
Proof.
  intros Hs Hi; destruct (guide_spec ps i Hi) as [G1 G2]; cbn zeta in *.
  rewrite (strip_increasing ps Hs) in *.
  apply (proj1 (NoDup_nth (n_plies_of ps) 0) (ssorted_lt_nodup _ Hs)); auto.
  unfold n_plies_of; rewrite map_length; auto.
Qed.

Definition no_panel : panel := {| p_ID := 0; p_nplies := 0; p_neigh := []; p_weighting := 0; p_area := 0 |}.

Lemma strip_panels_increasing ps : StronglySorted Z.lt (n_plies_of ps) -> strip_panels ps = ps.
Proof.
  intros Hs; apply (list_ext _ _ no_panel).
  - rewrite strip_panels_length, (strip_increasing ps Hs); unfold n_plies_of; apply map_length.
  - intros i Hi. rewrite strip_panels_length in Hi.
    unfold strip_panels. fold no_panel.
    rewrite (nth_indep _ no_panel (nth 0%nat ps no_panel)) by (rewrite map_length, reduc_length; auto).
    rewrite (map_nth (fun i => nth i ps no_panel)).
    destruct (reduc_spec ps i Hi) as [R1 [_ [_ R4]]]; cbn zeta in *.
    rewrite guide_increasing in R4 by auto; rewrite R4; auto.
Qed.

Lemma picked_id guide k : forall ps i,
  (forall j, (j < length ps)%nat -> nth (i + j) guide 0%nat = (i + j)%nat) ->
  (sumQ (picked guide k i ps) ==
   if Nat.leb i k then match nth_error ps (k - i) with Some p => p_weighting p | None => 0 end else 0)%Q.
Proof.
  unfold picked; induction ps as [|p t IH]; intros i H; cbn [length seq combine map].
  - cbn [sumQ fold_right]. destruct (Nat.leb i k); [|lra]. destruct (k - i)%nat; cbn; lra.
  - rewrite sumQ_cons; cbn [fst snd]. rewrite IH by
      (intros j Hj; specialize (H (S j)); rewrite Nat.add_succ_r in H; cbn [Nat.add] in *; apply H; cbn; lia).
    pose proof (H 0%nat ltac:(cbn; lia)) as H0; rewrite Nat.add_0_r in H0; rewrite H0.
    destruct (Nat.eqb_spec i k) as [->|Hn].
    + destruct (Nat.leb_spec k k); [|lia]; destruct (Nat.leb_spec (S k) k); [lia|].
      rewrite Nat.sub_diag; cbn; lra.
    + destruct (Nat.leb_spec (S i) k).
      * destruct (Nat.leb_spec i k); [|lia]. replace (k - i)%nat with (S (k - S i)) by lia; cbn; lra.
      * destruct (Nat.leb_spec i k); [lia|]; lra.
Qed.

Lemma total_weighting_one ps k p : StronglySorted Z.lt (n_plies_of ps) -> nth_error ps k = Some p ->
  (total_weighting ps (p_nplies p) == p_weighting p)%Q.
Proof.
  unfold total_weighting, n_plies_of; revert k; induction ps as [|q t IH]; intros k Hs Hk.
  - destruct k; discriminate.
  - cbn [map] in Hs; inversion Hs as [|? ? Hs' Hf]; subst.
    rewrite Forall_forall in Hf; cbn [filter].
    destruct k as [|k]; cbn in Hk.
    + injection Hk as ->; rewrite Z.eqb_refl; cbn [map]; rewrite sumQ_cons.
      assert (filter (fun p0 => p_nplies p0 =? p_nplies p) t = []) as ->; [|cbn; lra].
      destruct (filter _ t) as [|z r] eqn:E; auto.
      assert (Hin : In z (filter (fun p0 => p_nplies p0 =? p_nplies p) t)) by (rewrite E; left; auto).
      apply filter_In in Hin; destruct Hin as [Hin Ez]; apply Z.eqb_eq in Ez.
      specialize (Hf (p_nplies z) (in_map _ _ _ Hin)); lia.
    + specialize (Hf (p_nplies p) (in_map p_nplies _ _ (nth_error_In _ _ Hk))).
      destruct (Z.eqb_spec (p_nplies q) (p_nplies p)); [lia|]. eapply IH; eauto.
Qed.

Lemma actual_weightings_increasing ps k :
  StronglySorted Z.lt (n_plies_of ps) -> (k < length (strip_plies ps))%nat ->
  (nth k (actual_panel_weightings ps) 0 == total_weighting ps (nth k (strip_plies ps) 0%Z))%Q.
Proof.
  intros Hs Hk; rewrite actual_weightings_general.
  rewrite strip_panels_increasing by auto.
  rewrite picked_id by (intros j Hj; cbn [Nat.add]; apply guide_increasing; auto).
  cbn [Nat.leb]. rewrite Nat.sub_0_r. rewrite (strip_increasing ps Hs) in *.
  unfold n_plies_of in Hk |- *; rewrite map_length in Hk.
  destruct (nth_error ps k) as [p|] eqn:E; [|apply nth_error_None in E; lia].
  assert (nth k (map p_nplies ps) 0 = p_nplies p) as ->.
  { apply nth_error_nth; rewrite nth_error_map, E; auto. }
  symmetry; eapply total_weighting_one; eauto.
Qed.

(** the total of the strip weightings is the total over the representatives *)
Lemma sumQ_upd l i x : (i < length l)%nat -> (sumQ (addq l i x) == sumQ l + x)%Q.
Proof.
  unfold addq; revert i; induction l as [|a t IH]; intros i Hi; [cbn in Hi; lia|].
  destruct i as [|i]; cbn [upd nth]; rewrite ?sumQ_cons.
  - lra.
  - rewrite IH by (cbn in Hi; lia); lra.
Qed.
Lemma strip_weightings_sum guide : forall reps i acc,
  (forall j, (j < length reps)%nat -> (nth (i + j) guide 0 < length acc)%nat) ->
  (sumQ (strip_weightings guide i reps acc) == sumQ acc + sumQ (map p_weighting reps))%Q.
Proof.
  induction reps as [|p t IH]; intros i acc H; cbn [strip_weightings map].
  - cbn; lra.
  - rewrite IH, sumQ_upd, sumQ_cons.
    + lra.
    + specialize (H 0%nat); rewrite Nat.add_0_r in H; apply H; cbn; lia.
    + intros j Hj; unfold addq; rewrite upd_length.
      specialize (H (S j)); rewrite Nat.add_succ_r in H; apply H; cbn; lia.
Qed.
Lemma sumQ_repeat0 n : (sumQ (repeat 0%Q n) == 0)%Q.
Proof. induction n; cbn [repeat]; [reflexivity|]; rewrite sumQ_cons, IHn; lra. Qed.
Lemma actual_weightings_sum ps :
  (sumQ (actual_panel_weightings ps) == sumQ (map p_weighting (strip_panels ps)))%Q.
Proof.
  unfold actual_panel_weightings; rewrite strip_weightings_sum, sumQ_repeat0; [lra|].
  intros j Hj; rewrite repeat_length; cbn [Nat.add]; rewrite strip_panels_length in Hj.
  pose proof (strip_le ps). apply (guide_spec ps j); lia.
Qed.

Lemma sumQ_perm l m : Permutation l m -> (sumQ l == sumQ m)%Q.
Proof.
  induction 1; rewrite ?sumQ_cons in *; try reflexivity; try lra.
Qed.
Lemma sumQ_pos l : (forall x, In x l -> 0 < x)%Q -> l <> [] -> (0 < sumQ l)%Q.
Proof.
  destruct l as [|a t]; [congruence|]; intros H _; rewrite sumQ_cons.
  assert (0 < a)%Q by (apply H; left; auto).
  assert (0 <= sumQ t)%Q; [|lra].
  assert (Ht : forall x, In x t -> (0 < x)%Q) by (intros; apply H; right; auto).
  clear -Ht; induction t as [|b t IH]; [cbn; lra|]; rewrite sumQ_cons.
  assert (0 < b)%Q by (apply Ht; left; auto). assert (0 <= sumQ t)%Q by (apply IH; intros; apply Ht; right; auto). lra.
Qed.

(** NoDup sublist of indices: the rest exists as a list *)
Lemma nodup_incl_rest {A} (dec : forall x y : A, {x = y} + {x <> y}) (s l : list A) :
  NoDup s -> incl s l -> exists r, Permutation l (s ++ r).
Proof.
  intros Hn; revert l; induction Hn as [|a t Ha Hn IH]; intros l Hi; [exists l; auto|].
  destruct (in_split a l (Hi a (or_introl eq_refl))) as [l1 [l2 ->]].
  destruct (IH (l1 ++ l2)) as [r Hr].
  - intros x Hx; assert (X : In x (l1 ++ a :: l2)) by (apply Hi; right; auto).
    apply in_app_or in X; destruct X as [X|[X|X]]; [apply in_or_app; auto| subst; tauto |apply in_or_app; auto].
  - exists r; cbn [app]; rewrite <- Permutation_middle, Hr; auto.
Qed.

Lemma reduc_nodup ps : NoDup (ind_for_reduc ps).
Proof.
  rewrite (NoDup_nth _ 0%nat), reduc_length; intros i j Hi Hj E.
  destruct (reduc_spec ps i Hi) as [_ [A [_ _]]]; destruct (reduc_spec ps j Hj) as [_ [B [_ _]]]; cbn zeta in *.
  apply (proj1 (NoDup_nth (strip_plies ps) 0) (uniq_nodup _)); auto.
  rewrite <- A, <- B, E; auto.
Qed.

(** two equally thick panels: some weighting is lost, whatever the order *)
Lemma actual_weightings_lost ps :
  (forall p, In p ps -> 0 < p_weighting p)%Q -> ~ NoDup (n_plies_of ps) ->
  (sumQ (actual_panel_weightings ps) < sumQ (map p_weighting ps))%Q.
Proof.
  intros Hp Hd; rewrite actual_weightings_sum.
  destruct (nodup_incl_rest Nat.eq_dec (ind_for_reduc ps) (seq 0 (length ps)) (reduc_nodup ps)) as [r Hr].
  { intros x Hx; apply (In_nth _ _ 0%nat) in Hx; destruct Hx as [k [Hk <-]].
    rewrite reduc_length in Hk; destruct (reduc_spec ps k Hk) as [X _]; cbn zeta in X; apply in_seq; lia. }
  assert (Hall : forall l, map (fun i => nth i l no_panel) (seq 0 (length l)) = l).
  { intros l; apply (list_ext _ _ no_panel); [rewrite map_length, seq_length; auto|].
    rewrite map_length, seq_length; intros i Hi.
    rewrite (nth_indep _ no_panel ((fun i => nth i l no_panel) 0%nat)) by (rewrite map_length, seq_length; auto).
    rewrite (map_nth (fun i => nth i l no_panel)), seq_nth by auto; auto. }
  rewrite <- (Hall ps) at 2.
  assert (P : Permutation (map p_weighting (map (fun i => nth i ps no_panel) (seq 0 (length ps))))
     (map p_weighting (strip_panels ps) ++ map p_weighting (map (fun i => nth i ps no_panel) r))).
  { unfold strip_panels; fold no_panel; rewrite <- !map_app; do 2 apply Permutation_map; exact Hr. }
  rewrite (sumQ_perm _ _ P), sumQ_app.
  assert (0 < sumQ (map p_weighting (map (fun i => nth i ps no_panel) r)))%Q; [|lra].
  apply sumQ_pos.
  - intros x Hx; apply in_map_iff in Hx; destruct Hx as [p [<- Hx]]; apply Hp.
    apply in_map_iff in Hx; destruct Hx as [i [<- Hi]]; apply nth_In.
    assert (In i (seq 0 (length ps))) as X.
    { eapply Permutation_in; [apply Permutation_sym; exact Hr|]; apply in_or_app; auto. }
    apply in_seq in X; lia.
  - intros X; assert (r = []) as -> by (destruct r; auto; discriminate).
    apply Permutation_length in Hr; rewrite seq_length, app_nil_r, reduc_length in Hr.
    apply Hd, uniq_nodup_length. unfold strip_plies in Hr. rewrite <- Hr; unfold n_plies_of; rewrite map_length; auto.
Qed.

(* ------------------------------------------------------------------ *)
(** * Weightings during the ply-drop re-design *)
Lemma sumQ_map_div l c : ~ (c == 0)%Q -> (sumQ (map (fun x => x / c) l) == sumQ l / c)%Q.
Proof.
  intros Hc; induction l as [|a t IH]; cbn [map]; rewrite ?sumQ_cons.
  - cbn; field; auto.
  - rewrite IH; field; auto.
Qed.
Lemma normalise_sum l : ~ (sumQ l == 0)%Q -> (sumQ (normalise l) == 1)%Q.
Proof. intros H; unfold normalise; rewrite sumQ_map_div by auto; field; auto. Qed.
Lemma normalise_nth l i : (nth i (normalise l) 0 == nth i l 0 / sumQ l)%Q.
Proof.
  unfold normalise; destruct (Nat.lt_ge_cases i (length l)) as [H|H].
  - rewrite (nth_indep _ 0%Q ((fun x => x / sumQ l)%Q 0%Q)) by (rewrite map_length; auto).
    rewrite (map_nth (fun x => (x / sumQ l)%Q)); reflexivity.
  - rewrite !nth_overflow by (rewrite ?map_length; auto). unfold Qdiv; rewrite Qmult_0_l; reflexivity.
Qed.

Lemma skipn_cons_nth {A} k (v : list A) d : (k < length v)%nat -> skipn k v = nth k v d :: skipn (S k) v.
Proof.
  revert v; induction k as [|k IH]; intros [|a t] H; cbn [length] in H; try lia; auto.
  cbn [nth]; change (skipn (S k) (a :: t)) with (skipn k t); rewrite IH by lia; auto.
Qed.
Lemma firstn_snoc_nth {A} k (v : list A) d : (k < length v)%nat -> firstn (S k) v = firstn k v ++ [nth k v d].
Proof.
  revert v; induction k as [|k IH]; intros [|a t] H; cbn [length] in H; try lia; auto.
  change (firstn (S (S k)) (a :: t)) with (a :: firstn (S k) t); rewrite IH by lia; auto.
Qed.

Lemma weightings_thin_spec w ref k :
  (k < ref <= length w)%nat -> ~ (sumQ (firstn ref w) == 0)%Q ->
  let v := weightings_thin w ref k in
  length v = (ref - k)%nat /\ (sumQ v == 1)%Q /\
  (nth 0 v 0 == sumQ (firstn (S k) w) / sumQ (firstn ref w))%Q /\
  forall j, (0 < j < ref - k)%nat -> (nth j v 0 == nth (k + j) w 0 / sumQ (firstn ref w))%Q.
Proof.
  intros Hk Hs; cbn zeta; unfold weightings_thin.
  set (v := normalise (firstn ref w)).
  assert (Lv : length v = ref) by (unfold v, normalise; rewrite map_length, firstn_length; lia).
  assert (Hkv : (k < length v)%nat) by lia.
  pose proof (skipn_cons_nth k v 0%Q Hkv) as Hsk.
  pose proof (firstn_snoc_nth k v 0%Q Hkv) as Hf0.
  assert (Hf : (sumQ (firstn (S k) v) == sumQ (firstn k v) + nth k v 0)%Q).
  { rewrite Hf0, sumQ_app; cbn [sumQ fold_right]; lra. }
  assert (Hall : (sumQ v == sumQ (firstn k v) + (nth k v 0 + sumQ (skipn (S k) v)))%Q).
  { rewrite <- sumQ_cons, <- Hsk, <- sumQ_app, firstn_skipn; reflexivity. }
  pose proof (normalise_sum _ Hs) as N; fold v in N.
  rewrite Hsk; cbn [add_first]; split; [|split; [|split]].
  - cbn [length]; rewrite skipn_length; lia.
  - rewrite sumQ_cons; lra.
  - cbn [nth]. rewrite Qplus_comm, <- Hf.
    unfold v, normalise.
    rewrite firstn_map, sumQ_map_div by auto.
    rewrite firstn_firstn; replace (Nat.min (S k) ref) with (S k) by lia; reflexivity.
  - intros [|j] Hj; [lia|]; cbn [nth]; rewrite nth_skipn; unfold v; rewrite normalise_nth.
    rewrite nth_firstn by lia. replace (S k + j)%nat with (k + S j)%nat by lia. reflexivity.
Qed.

Lemma weightings_thick_spec w ref k :
  (ref < k < length w)%nat -> ~ (sumQ (skipn (S ref) w) == 0)%Q ->
  let v := weightings_thick w ref k in
  length v = (k - ref)%nat /\ (sumQ v == 1)%Q /\
  (nth (k - ref - 1) v 0 == sumQ (skipn k w) / sumQ (skipn (S ref) w))%Q /\
  forall j, (j < k - ref - 1)%nat -> (nth j v 0 == nth (S ref + j) w 0 / sumQ (skipn (S ref) w))%Q.
Proof.
  intros Hk Hs; cbn zeta; unfold weightings_thick.
  set (v := normalise (skipn (S ref) w)).
  assert (Lv : length v = (length w - S ref)%nat) by (unfold v, normalise; rewrite map_length, skipn_length; lia).
  destruct (k - ref)%nat as [|m] eqn:Em; [lia|].
  assert (Hm : (m < length v)%nat) by lia.
  pose proof (firstn_snoc_nth m v 0%Q Hm) as Hf.
  pose proof (skipn_cons_nth m v 0%Q Hm) as Hsk.
  pose proof (normalise_sum _ Hs) as N; fold v in N.
  assert (Hall : (sumQ v == sumQ (firstn m v) + (nth m v 0 + sumQ (skipn (S m) v)))%Q).
  { rewrite <- sumQ_cons, <- Hsk, <- sumQ_app, firstn_skipn; reflexivity. }
  unfold add_last; rewrite Hf, rev_app_distr; cbn [rev app]; rewrite rev_involutive.
  assert (Lf : length (firstn m v) = m) by (rewrite firstn_length; lia).
  split; [|split; [|split]].
  - rewrite app_length, Lf; cbn; lia.
  - rewrite sumQ_app; cbn [sumQ fold_right]; lra.
  - replace (S m - 1)%nat with m by lia. rewrite app_nth2, Lf, Nat.sub_diag by lia; cbn [nth].
    rewrite <- sumQ_cons, <- Hsk; unfold v, normalise.
    rewrite skipn_map, sumQ_map_div by auto.
    rewrite skipn_skipn; replace (m + S ref)%nat with k by lia; reflexivity.
  - intros j Hj; rewrite app_nth1 by lia; rewrite nth_firstn by lia. unfold v; rewrite normalise_nth, nth_skipn; reflexivity.
Qed.

(* ------------------------------------------------------------------ *)
(** * C43: each panel is announced exactly once *)
Section Once.
Variables (sym : bool) (plies : list Z) (ref : nat).
Hypothesis Hs : StronglySorted Z.lt plies.
Hypothesis Href : (ref < length plies)%nat.
Hypothesis Hpar : sym = true -> forall i, (i < length plies)%nat ->
  Z.even (nth i plies 0) = Z.even (nth ref plies 0).

Lemma sorted_between i j : (i < length plies)%nat -> (j < length plies)%nat ->
  nth i plies 0 < nth j plies 0 -> (i < j)%nat.
Proof.
  intros Hi Hj L; destruct (Nat.lt_trichotomy i j) as [|[->|H]]; auto; [lia|].
  pose proof (ssorted_nth Z.lt plies j i 0 Hs ltac:(lia)); lia.
Qed.

Lemma thin_once t : thin_table sym plies ref = Ok (Some t) ->
  forall i, (i < ref)%nat -> exists! k, exists r,
    nth_error t k = Some r /\ s_new r = true /\ s_panel r = Z.of_nat i.
Proof.
  intros E i Hi.
  destruct (thin_table_spec sym plies ref Hs Href Hpar) as [_ T].
  destruct T as [t' [E' [L R]]]; [lia|]. rewrite E in E'; injection E' as <-.
  pose proof (d_pos sym plies ref Href Hpar) as Hd.
  destruct (congr sym plies ref Href Hpar (S i) ltac:(lia)) as [q Hq].
  assert (Hq0 : 0 <= q).
  { destruct (Nat.eq_dec (S i) ref) as [Er|]; [rewrite Er in Hq; nia|].
    pose proof (ssorted_nth Z.lt plies (S i) ref 0 Hs ltac:(lia)); nia. }
  pose proof (mono sym plies ref Hs Href Hpar) as M.
  assert (Hql : (Z.to_nat q < length t)%nat).
  { pose proof (M 0%nat (S i) ltac:(lia)). unfold zlen in L. nia. }
  exists (Z.to_nat q); split.
  - destruct (R _ Hql) as [r [Er [i' [I1 [I2 [I3 [I4 [I5 [I6 [I7 [I8 I9]]]]]]]]]]].
    assert (s_before r = nth (S i) plies 0) as B by (rewrite I4, Z2Nat.id by lia; lia).
    assert (i' = i) as ->.
    { assert (i' < S i)%nat by (apply sorted_between; lia).
      destruct (Nat.eq_dec i' i); auto.
      pose proof (M (S i') (S i) ltac:(lia)). lia. }
    exists r; repeat split; auto; apply I8; auto.
  - intros k' [r [Er [En Ep]]].
    assert (Hk' : (k' < length t)%nat) by (apply nth_error_Some; congruence).
    destruct (R _ Hk') as [r' [Er' [i' [I1 [I2 [I3 [I4 [I5 [I6 [I7 [I8 I9]]]]]]]]]]].
    rewrite Er in Er'; injection Er' as <-.
    assert (i' = i) as -> by lia. apply I8 in En. nia.
Qed.

Lemma thick_once t : thick_table sym plies ref = Ok (Some t) ->
  forall i, (ref < i < length plies)%nat -> exists! k, exists r,
    nth_error t k = Some r /\ s_new r = true /\ s_panel r = Z.of_nat i.
Proof.
  intros E i Hi.
  destruct (thick_table_spec sym plies ref Hs Href Hpar) as [_ T].
  destruct T as [t' [E' [L R]]]; [lia|]. rewrite E in E'; injection E' as <-.
  pose proof (d_pos sym plies ref Href Hpar) as Hd.
  destruct i as [|i]; [lia|].
  destruct (congr sym plies ref Href Hpar i ltac:(lia)) as [q Hq].
  assert (Hq0 : q <= 0).
  { destruct (Nat.eq_dec i ref) as [Er|]; [rewrite Er in Hq; nia|].
    pose proof (ssorted_nth Z.lt plies ref i 0 Hs ltac:(lia)); nia. }
  pose proof (mono sym plies ref Hs Href Hpar) as M.
  assert (HL : last plies 0 = nth (length plies - 1) plies 0).
  { apply (last_nth sym plies ref Href plies); intros X; rewrite X in Href; cbn in Href; lia. }
  assert (Hql : (Z.to_nat (- q) < length t)%nat).
  { pose proof (M i (length plies - 1)%nat ltac:(lia)). unfold zlen in L. nia. }
  exists (Z.to_nat (- q)); split.
  - destruct (R _ Hql) as [r [Er [i' [I0 [I1 [I2 [I3 [I4 [I5 [I6 [I7 [I8 I9]]]]]]]]]]]].
    assert (s_before r = nth i plies 0) as B by (rewrite I4, Z2Nat.id by lia; lia).
    assert (i' = i) as ->.
    { assert (i < S i')%nat by (apply sorted_between; lia).
      destruct (Nat.eq_dec i' i); auto.
      pose proof (M i i' ltac:(lia)). lia. }
    exists r; repeat split; auto; apply I8; auto.
  - intros k' [r [Er [En Ep]]].
    assert (Hk' : (k' < length t)%nat) by (apply nth_error_Some; congruence).
    destruct (R _ Hk') as [r' [Er' [i' [I0 [I1 [I2 [I3 [I4 [I5 [I6 [I7 [I8 I9]]]]]]]]]]]].
    rewrite Er in Er'; injection Er' as <-.
    assert (i' = i) as -> by lia. apply I8 in En. nia.
Qed.
End Once.
