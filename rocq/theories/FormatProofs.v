(* FormatProofs.v - specification and lemmas for Format.v *)
From Verif Require Import Base Uniq Divers DiversProofs Spacing SpacingProofs Strip StripProofs StripGraph StripWeights Format.
Local Open Scope Z_scope.

(* ------------------------------------------------------------------ *)
(** * Specification *)

(** counting from 1, table position [p] holds ply number [k] of the panel whose layout
    line is [pdl] *)
Definition ply_at (pdl : list Z) (p k : Z) : Prop :=
  1 <= p <= zlen pdl /\ nth (Z.to_nat (p - 1)) pdl (-1) <> -1 /\
  k = Z.of_nat (countb kept (firstn (Z.to_nat p) pdl)).

(** every row has [n] entries *)
Definition rect (n : nat) (t : list (list Z)) : Prop := forall r, In r t -> length r = n.

(** [s] is obtained from [l] by only removing elements *)
Inductive subseq {A} : list A -> list A -> Prop :=
| sub_nil : subseq [] []
| sub_skip a s l : subseq s l -> subseq s (a :: l)
| sub_keep a s l : subseq s l -> subseq (a :: s) (a :: l).

(** a ply dropped in the thicker panel is dropped in the thinner one *)
Definition nested (thin thick : list Z) : Prop :=
  length thin = length thick /\
  forall j, nth j thick (-1) = -1 -> nth j thin (-1) = -1.

(** the plies of [guide] kept by the layout line [p] *)
Definition selected (guide p : list Z) : list Z :=
  map fst (filter (fun gp => kept (snd gp)) (combine guide p)).

Lemma kept_true x : kept x = true <-> x <> -1.
Proof. unfold kept; destruct (Z.eqb_spec x (-1)); cbn; split; congruence. Qed.
Lemma kept_false x : kept x = false <-> x = -1.
Proof. unfold kept; destruct (Z.eqb_spec x (-1)); cbn; split; congruence. Qed.

(* ------------------------------------------------------------------ *)
(** * C25 *)
Definition rel_at (pdl : list Z) (ind counter : Z) (q k : Z) : Prop := ply_at pdl (q - ind) (k - counter).

Lemma ply_at_here x t : kept x = true -> ply_at (x :: t) 1 1.
Proof.
  intros H; unfold ply_at; split; [unfold zlen; cbn [length]; lia|]. split; [cbn; apply kept_true; auto|].
  cbn [Z.to_nat Pos.to_nat]. change (Pos.to_nat 1) with 1%nat; cbn [firstn]. rewrite countb_cons, H; reflexivity.
Qed.
Lemma ply_at_next x t p k : ply_at t p k -> ply_at (x :: t) (p + 1) (k + if kept x then 1 else 0).
Proof.
  intros [H1 [H2 H3]]; unfold ply_at; split; [unfold zlen in *; cbn [length]; lia|].
  replace (Z.to_nat (p + 1 - 1)) with (S (Z.to_nat (p - 1))) by lia.
  split; [exact H2|]. replace (Z.to_nat (p + 1)) with (S (Z.to_nat p)) by lia.
  cbn [firstn]; rewrite countb_cons, H3; destruct (kept x); cbn [Nat.b2n]; lia.
Qed.

Lemma Forall2_impl {A B} (P Q : A -> B -> Prop) l m :
  (forall a b, P a b -> Q a b) -> Forall2 P l m -> Forall2 Q l m.
Proof. intros H; induction 1; constructor; auto. Qed.

Lemma ref_scan_spec : forall pdl ind counter pos,
  StronglySorted Z.lt pos -> pos <> [] ->
  (forall k, In k pos -> counter < k <= counter + Z.of_nat (countb kept pdl)) ->
  Forall2 (rel_at pdl ind counter) (ref_scan pdl ind counter pos) pos.
Proof.
  induction pdl as [|x t IH]; intros ind counter pos Hs Hne Hr.
  - destruct pos as [|p ps]; [congruence|]. specialize (Hr p (or_introl eq_refl)); cbn in Hr; lia.
  - cbn [ref_scan]. rewrite countb_cons in Hr.
    assert (Lift : forall c l pos', Forall2 (rel_at t (ind + 1) c) l pos' ->
       c = counter + (if kept x then 1 else 0) ->
       Forall2 (rel_at (x :: t) ind counter) l pos').
    { intros c l pos' F Ec; eapply Forall2_impl; [|exact F]; cbn beta.
      intros q k Hq; unfold rel_at in *; subst c.
      apply ply_at_next with (x := x) in Hq.
      replace (q - ind) with (q - (ind + 1) + 1) by lia.
      replace (k - counter) with (k - (counter + (if kept x then 1 else 0)) + (if kept x then 1 else 0)) by lia.
      exact Hq. }
    destruct (kept x) eqn:Ek; rewrite ?Ek in Hr; rewrite ?Ek in Lift.
    + destruct pos as [|p ps]; [congruence|]. cbn zeta.
      destruct (Z.eqb_spec (counter + 1) p) as [<-|Hn].
      * constructor.
        -- unfold rel_at; replace (ind + 1 - ind) with 1 by lia; replace (counter + 1 - counter) with 1 by lia.
           apply ply_at_here; auto.
        -- destruct ps as [|p2 ps]; [constructor|].
           apply (Lift (counter + 1)); [|lia]. inversion Hs; subst.
           apply IH; auto; [discriminate|].
           intros k Hk; rewrite Forall_forall in H2; specialize (H2 k Hk).
           specialize (Hr k (or_intror Hk)); cbn [Nat.b2n] in Hr; lia.
      * apply (Lift (counter + 1)); [|lia].
        apply IH; auto. intros k Hk; pose proof (Hr k Hk) as Hr'; cbn [Nat.b2n] in Hr'.
        destruct Hk as [<-|Hk]; [lia|]. inversion Hs; subst.
        rewrite Forall_forall in H2; specialize (H2 k Hk).
        specialize (Hr p (or_introl eq_refl)). lia.
    + apply (Lift counter); [|lia]. apply IH; auto.
Qed.

Lemma ainsert_perm k l : Permutation (k :: l) (ainsert k l).
Proof.
  induction l as [|h t IH]; cbn [ainsert]; auto.
  destruct (fst k <=? fst h); auto. rewrite perm_swap; constructor; exact IH.
Qed.
Lemma asort_perm l : Permutation l (asort l).
Proof. induction l as [|a t IH]; cbn [asort]; auto. rewrite <- ainsert_perm; auto. Qed.
Lemma ainsert_sorted k l : StronglySorted (fun a b => fst a <= fst b) l ->
  StronglySorted (fun a b => fst a <= fst b) (ainsert k l).
Proof.
  induction 1 as [|h t Hs IH Hf]; cbn [ainsert]; [repeat constructor|].
  destruct (Z.leb_spec (fst k) (fst h)).
  - constructor; [constructor; auto|]. constructor; auto.
    eapply Forall_impl; [|exact Hf]; cbn beta; intros; lia.
  - constructor; auto. apply Forall_forall; intros y Hy.
    apply (Permutation_in _ (Permutation_sym (ainsert_perm k t))) in Hy.
    destruct Hy as [<-|Hy]; [lia|]; rewrite Forall_forall in Hf; auto.
Qed.
Lemma asort_sorted l : StronglySorted (fun a b => fst a <= fst b) (asort l).
Proof. induction l; cbn [asort]; [constructor | apply ainsert_sorted; auto]. Qed.

Lemma map_fst_combine {A B} (l : list A) (m : list B) : length l = length m -> map fst (combine l m) = l.
Proof. revert m; induction l as [|a t IH]; intros [|b m] H; cbn in *; try lia; auto; f_equal; apply IH; lia. Qed.
Lemma map_snd_combine {A B} (l : list A) (m : list B) : length l = length m -> map snd (combine l m) = m.
Proof. revert m; induction l as [|a t IH]; intros [|b m] H; cbn in *; try lia; auto; f_equal; apply IH; lia. Qed.

Lemma argsorted_perm l : Permutation (combine l (seq 0 (length l))) (argsorted l).
Proof. apply asort_perm. Qed.
Lemma argsorted_fst_perm l : Permutation l (map fst (argsorted l)).
Proof.
  transitivity (map fst (combine l (seq 0 (length l)))).
  - rewrite map_fst_combine; [reflexivity | rewrite seq_length; auto].
  - apply Permutation_map, argsorted_perm.
Qed.
Lemma argsorted_snd_perm l : Permutation (seq 0 (length l)) (map snd (argsorted l)).
Proof.
  transitivity (map snd (combine l (seq 0 (length l)))).
  - rewrite map_snd_combine; [reflexivity | rewrite seq_length; auto].
  - apply Permutation_map, argsorted_perm.
Qed.
Lemma argsorted_sorted l : NoDup l -> StronglySorted Z.lt (map fst (argsorted l)).
Proof.
  intros Hn. assert (N : NoDup (map fst (argsorted l))) by
    (eapply Permutation_NoDup; [apply argsorted_fst_perm | auto]).
  unfold argsorted in *. pose proof (asort_sorted (combine l (seq 0 (length l)))) as S.
  revert N S; generalize (asort (combine l (seq 0 (length l)))) as m; clear.
  induction m as [|a t IH]; intros N S; cbn [map] in *; [constructor|].
  inversion N; inversion S; subst; constructor; auto.
  apply Forall_forall; intros y Hy; apply in_map_iff in Hy as Hy'; destruct Hy' as [z [<- Hz]].
  rewrite Forall_forall in H6; specialize (H6 z Hz).
  assert (fst a <> fst z) by (intros E; apply H1; rewrite E; auto). lia.
Qed.

Lemma where_first_spec a : forall l, In a l ->
  exists i, where_first a l = Ok i /\ nth_error l i = Some a.
Proof.
  induction l as [|b t IH]; intros H; [destruct H|]; cbn [where_first].
  destruct (Nat.eqb_spec b a) as [->|Hn]; [exists 0%nat; auto|].
  destruct H as [|H]; [congruence|]. destruct (IH H) as [i [-> E]]; cbn [bind]; exists (S i); auto.
Qed.

Lemma mapR_forall2 {A B} (f : A -> result B) (P : A -> B -> Prop) : forall l,
  (forall x, In x l -> exists y, f x = Ok y /\ P x y) ->
  exists r, mapR f l = Ok r /\ Forall2 P l r.
Proof.
  induction l as [|a t IH]; intros H; cbn [mapR]; [exists []; auto|].
  destruct (H a (or_introl eq_refl)) as [b [-> Pb]]; cbn [bind].
  destruct (IH (fun x Hx => H x (or_intror Hx))) as [r [-> F]]; cbn [bind]; eauto.
Qed.

Lemma Forall2_nth {A B} (P : A -> B -> Prop) l m da db : Forall2 P l m ->
  forall i, (i < length l)%nat -> P (nth i l da) (nth i m db).
Proof.
  induction 1; intros i Hi; [cbn in Hi; lia|]. destruct i; cbn; auto. apply IHForall2; cbn in Hi; lia.
Qed.
Lemma Forall2_len {A B} (P : A -> B -> Prop) l m : Forall2 P l m -> length l = length m.
Proof. induction 1; cbn; auto. Qed.

Lemma pos_ref_spec pos pdl :
  NoDup pos -> (forall k, In k pos -> 1 <= k <= Z.of_nat (countb kept pdl)) ->
  exists r, pos_in_ss_ref_to_pos_in_sst pos pdl = Ok r /\
    Forall2 (fun p k => ply_at pdl p k) r pos.
Proof.
  intros Hn Hr. unfold pos_in_ss_ref_to_pos_in_sst.
  destruct pos as [|p0 ps0]; [exists []; auto|].
  set (pos := p0 :: ps0) in *. cbn zeta.
  assert (F : Forall2 (rel_at pdl 0 0) (ref_scan pdl 0 0 (map fst (argsorted pos))) (map fst (argsorted pos))).
  { apply ref_scan_spec; [apply argsorted_sorted; auto| |].
    - intros E; pose proof (argsorted_fst_perm pos) as P; rewrite E in P.
      apply Permutation_length in P; discriminate.
    - intros k Hk; apply (Permutation_in _ (Permutation_sym (argsorted_fst_perm pos))) in Hk.
      specialize (Hr k Hk); lia. }
  set (sc := ref_scan pdl 0 0 (map fst (argsorted pos))) in *.
  pose proof (Forall2_len _ _ _ F) as Lsc.
  assert (Ls : length (argsorted pos) = length pos).
  { pose proof (Permutation_length (argsorted_fst_perm pos)) as P; rewrite map_length in P; auto. }
  rewrite map_length, Ls in Lsc. rewrite Lsc.
  destruct (mapR_forall2 (fun i => where_first i (map snd (argsorted pos)))
    (fun i r => nth_error (map snd (argsorted pos)) r = Some i) (seq 0 (length pos))) as [ro [E1 F1]].
  { intros i Hi; apply (Permutation_in _ (argsorted_snd_perm pos)) in Hi.
    destruct (where_first_spec i _ Hi) as [r [R1 R2]]; eauto. }
  rewrite E1; cbn [bind].
  pose proof (Forall2_len _ _ _ F1) as L1; rewrite seq_length in L1.
  assert (Hro : forall i, (i < length pos)%nat ->
    (nth i ro 0 < length pos)%nat /\ nth (nth i ro 0%nat) (argsorted pos) (0, 0%nat) = (nth i pos 0, i)).
  { intros i Hi. pose proof (Forall2_nth _ _ _ 0%nat 0%nat F1 i ltac:(rewrite seq_length; auto)) as X.
    rewrite seq_nth in X by auto; cbn [Nat.add] in X.
    rewrite nth_error_map in X.
    destruct (nth_error (argsorted pos) (nth i ro 0%nat)) as [[v j]|] eqn:Ea; [|discriminate].
    cbn in X; injection X as ->. split; [rewrite <- Ls; apply nth_error_Some; congruence|].
    rewrite (nth_error_nth _ _ _ Ea). f_equal.
    apply nth_error_In in Ea. apply (Permutation_in _ (Permutation_sym (argsorted_perm pos))) in Ea.
    apply (In_nth _ _ (0, 0%nat)) in Ea; destruct Ea as [m [Hm Em]].
    rewrite combine_length, seq_length, Nat.min_id in Hm.
    rewrite combine_nth in Em by (rewrite seq_length; auto).
    rewrite seq_nth in Em by auto; cbn [Nat.add] in Em; injection Em as Ev ->; auto. }
  rewrite (mapR_row 0).
  2: { intros r Hin; apply (In_nth _ _ 0%nat) in Hin; destruct Hin as [i [Hi <-]]; rewrite Lsc.
       apply Hro; lia. }
  eexists; split; [reflexivity|].
  assert (G : forall i, (i < length pos)%nat -> ply_at pdl (nth (nth i ro 0%nat) sc 0) (nth i pos 0)).
  { intros i Hi; destruct (Hro i Hi) as [B X].
    pose proof (Forall2_nth _ _ _ 0 0 F (nth i ro 0%nat) ltac:(lia)) as Y.
    unfold rel_at in Y; rewrite !Z.sub_0_r in Y.
    rewrite (nth_indep (map fst (argsorted pos)) 0 (fst (0, 0%nat))) in Y by (rewrite map_length; lia).
    rewrite (map_nth fst), X in Y; exact Y. }
  clearbody pos sc. clear - G L1. revert ro L1 G; induction pos as [|k t IH]; intros [|r ro] L1 G; cbn in *; try lia; constructor.
  - apply (G 0%nat); lia.
  - apply IH; [lia|]. intros i Hi; apply (G (S i)); lia.
Qed.

Lemma panel_scan_spec : forall k ind pdl pos cnt,
  StronglySorted Z.lt pos -> pos <> [] ->
  (forall p, In p pos -> ind < p <= ind + zlen pdl) ->
  Z.of_nat k = last pos 0 - ind ->
  panel_scan k ind pdl pos cnt =
  Ok (map (fun p => cnt + Z.of_nat (countb kept (firstn (Z.to_nat (p - ind)) pdl)))
          (filter (fun p => kept (nth (Z.to_nat (p - ind - 1)) pdl (-1))) pos)).
Proof.
  induction k as [|k IH]; intros ind pdl pos cnt Hs Hne Hr Hk.
  - exfalso. assert (In (last pos 0) pos).
    { destruct (exists_last Hne) as [l [x ->]]; rewrite last_last; apply in_or_app; right; left; auto. }
    specialize (Hr _ H); lia.
  - destruct pos as [|p ps]; [congruence|].
    pose proof (Hr p (or_introl eq_refl)) as Hp.
    destruct pdl as [|x t]; [unfold zlen in Hp; cbn in Hp; lia|].
    cbn [panel_scan].
    assert (Hps : forall q, In q ps -> p < q).
    { inversion Hs; subst; rewrite Forall_forall in H2; auto. }
    assert (Conv : forall q c, ind + 1 < q -> c = cnt + (if kept x then 1 else 0) ->
       (c + Z.of_nat (countb kept (firstn (Z.to_nat (q - (ind + 1))) t)) =
        cnt + Z.of_nat (countb kept (firstn (Z.to_nat (q - ind)) (x :: t)))) /\
       kept (nth (Z.to_nat (q - (ind + 1) - 1)) t (-1)) = kept (nth (Z.to_nat (q - ind - 1)) (x :: t) (-1))).
    { intros q c Hq ->; split.
      - replace (Z.to_nat (q - ind)) with (S (Z.to_nat (q - (ind + 1)))) by lia.
        cbn [firstn]; rewrite countb_cons; destruct (kept x); cbn [Nat.b2n]; lia.
      - replace (Z.to_nat (q - ind - 1)) with (S (Z.to_nat (q - (ind + 1) - 1))) by lia; auto. }
    assert (ConvL : forall l c, (forall q, In q l -> ind + 1 < q) -> c = cnt + (if kept x then 1 else 0) ->
      map (fun q => c + Z.of_nat (countb kept (firstn (Z.to_nat (q - (ind + 1))) t)))
          (filter (fun q => kept (nth (Z.to_nat (q - (ind + 1) - 1)) t (-1))) l) =
      map (fun q => cnt + Z.of_nat (countb kept (firstn (Z.to_nat (q - ind)) (x :: t))))
          (filter (fun q => kept (nth (Z.to_nat (q - ind - 1)) (x :: t) (-1))) l)).
    { intros l c Hl Hc; induction l as [|q l IHl]; auto. cbn [filter].
      destruct (Conv q c (Hl q (or_introl eq_refl)) Hc) as [C1 C2]; rewrite C2.
      assert (IHl' := IHl (fun q' Hq' => Hl q' (or_intror Hq'))).
      destruct (kept (nth (Z.to_nat (q - ind - 1)) (x :: t) (-1))); auto.
      cbn [map]; rewrite C1; f_equal; auto. }
    assert (Hrt : forall q, In q (p :: ps) -> ind + 1 < q -> ind + 1 < q <= ind + 1 + zlen t).
    { intros q Hq Hlt; specialize (Hr q Hq); unfold zlen in *; cbn [length] in Hr; lia. }
    destruct (Z.eqb_spec p (ind + 1)) as [Ep|Ep].
    + destruct ps as [|p2 ps2].
      * (* last iteration *)
        assert (k = 0%nat) as -> by (cbn [last] in Hk; lia).
        cbn [filter]. replace (Z.to_nat (p - ind - 1)) with 0%nat by lia. cbn [nth].
        destruct (kept x) eqn:Ex; cbn [panel_scan bind map]; auto.
        replace (Z.to_nat (p - ind)) with 1%nat by lia. cbn [firstn]; rewrite countb_cons, Ex; reflexivity.
      * assert (Hs' : StronglySorted Z.lt (p2 :: ps2)) by (inversion Hs; auto).
        assert (Hl : last (p :: p2 :: ps2) 0 = last (p2 :: ps2) 0) by reflexivity.
        assert (Hpos : forall q, In q (p2 :: ps2) -> ind + 1 < q) by (intros q Hq; specialize (Hps q Hq); lia).
        remember (p2 :: ps2) as ps eqn:Eps. cbn [filter].
        replace (Z.to_nat (p - ind - 1)) with 0%nat by lia. cbn [nth].
        assert (Hne' : ps <> []) by (subst; discriminate).
        destruct (kept x) eqn:Ex.
        -- rewrite IH; auto; [|intros q Hq; apply Hrt; [right; auto | auto] | lia].
           cbn [bind map]. replace (Z.to_nat (p - ind)) with 1%nat by lia. cbn [firstn].
           rewrite countb_cons, Ex. f_equal. f_equal. apply ConvL; auto; lia.
        -- rewrite IH; auto; [|intros q Hq; apply Hrt; [right; auto | auto] | lia].
           f_equal. apply ConvL; auto; lia.
    + assert (Hpos : forall q, In q (p :: ps) -> ind + 1 < q).
      { intros q [<-|Hq]; [lia|]; specialize (Hps q Hq); lia. }
      rewrite IH; auto; [|lia].
      f_equal. apply ConvL; auto. destruct (kept x); lia.
Qed.

Lemma pos_panel_spec pos pdl :
  StronglySorted Z.lt pos -> (forall p, In p pos -> 1 <= p <= zlen pdl) ->
  pos_in_sst_to_pos_in_panel pos pdl =
  Ok (map (fun p => Z.of_nat (countb kept (firstn (Z.to_nat p) pdl)))
          (filter (fun p => kept (nth (Z.to_nat (p - 1)) pdl (-1))) pos)).
Proof.
  intros Hs Hr; unfold pos_in_sst_to_pos_in_panel; destruct pos as [|p ps]; auto.
  rewrite panel_scan_spec; auto.
  - f_equal. rewrite (filter_ext _ (fun p => kept (nth (Z.to_nat (p - 1)) pdl (-1)))) by
      (intros q; replace (q - 0 - 1) with (q - 1) by lia; auto).
    apply map_ext; intros q; rewrite Z.sub_0_r; auto.
  - discriminate.
  - intros q Hq; specialize (Hr q Hq); lia.
  - assert (1 <= last (p :: ps) 0); [|lia]. apply Hr.
    destruct (exists_last (l := p :: ps)) as [l [x E]]; [discriminate|]; rewrite E, last_last; apply in_or_app; right; left; auto.
Qed.

Lemma pos_panel2_spec pos pdl :
  (forall p, In p pos -> 1 <= p <= zlen pdl) ->
  exists r, pos_in_sst_to_pos_in_panel_2 pos pdl = Ok r /\
    Forall2 (fun p k => (nth (Z.to_nat (p - 1)) pdl (-1) = -1 /\ k = absent) \/ ply_at pdl p k) pos r.
Proof.
  intros Hr; unfold pos_in_sst_to_pos_in_panel_2; apply mapR_forall2.
  intros p Hp; specialize (Hr p Hp).
  assert (get pdl (p - 1) = Ok (nth (Z.to_nat (p - 1)) pdl (-1))) as ->.
  { replace (p - 1) with (Z.of_nat (Z.to_nat (p - 1))) at 1 by lia. apply get_ok.
    unfold zlen in Hr; lia. }
  cbn [bind]; eexists; split; [reflexivity|].
  destruct (kept (nth (Z.to_nat (p - 1)) pdl (-1))) eqn:E.
  - right; apply kept_true in E; split; auto; split; auto. unfold py_prefix.
    destruct (Z.leb_spec 0 p); [auto|lia].
  - left; apply kept_false in E; auto.
Qed.

(** a table position determines the ply number and conversely *)
Lemma countb_firstn_S (pdl : list Z) i : (i < length pdl)%nat ->
  countb kept (firstn (S i) pdl) = (countb kept (firstn i pdl) + if kept (nth i pdl (-1)%Z) then 1 else 0)%nat.
Proof.
  revert i; induction pdl as [|x t IH]; intros i Hi; [cbn in Hi; lia|].
  destruct i as [|i].
  - cbn [firstn nth]; rewrite countb_cons; cbn; destruct (kept x); cbn; lia.
  - change (firstn (S (S i)) (x :: t)) with (x :: firstn (S i) t).
    change (firstn (S i) (x :: t)) with (x :: firstn i t).
    rewrite !countb_cons, IH by (cbn in Hi; lia); cbn [nth]; lia.
Qed.
Lemma countb_firstn_mono (pdl : list Z) : forall i j, (i <= j)%nat ->
  (countb kept (firstn i pdl) <= countb kept (firstn j pdl))%nat.
Proof.
  induction pdl as [|x t IH]; intros i j H; [rewrite !firstn_nil; auto|].
  destruct i as [|i]; [cbn; lia|]. destruct j as [|j]; [lia|].
  cbn [firstn]; rewrite !countb_cons; specialize (IH i j ltac:(lia)); lia.
Qed.
Lemma ply_at_mono pdl p q k l : ply_at pdl p k -> ply_at pdl q l -> (p < q <-> k < l).
Proof.
  intros [A1 [A2 A3]] [B1 [B2 B3]].
  assert (G : forall p q k l, 1 <= p <= zlen pdl -> 1 <= q <= zlen pdl ->
     nth (Z.to_nat (q - 1)) pdl (-1) <> -1 ->
     k = Z.of_nat (countb kept (firstn (Z.to_nat p) pdl)) ->
     l = Z.of_nat (countb kept (firstn (Z.to_nat q) pdl)) -> p < q -> k < l).
  { clear; intros p q k l Hp Hq Hn -> -> Hlt.
    replace (Z.to_nat q) with (S (Z.to_nat (q - 1))) by lia.
    rewrite countb_firstn_S by (unfold zlen in Hq; lia).
    apply kept_true in Hn; rewrite Hn.
    pose proof (countb_firstn_mono pdl (Z.to_nat p) (Z.to_nat (q - 1)) ltac:(lia)). lia. }
  split; intros H; [exact (G p q k l A1 B1 B2 A3 B3 H)|].
  destruct (Z.lt_trichotomy p q) as [|[E|X]]; auto.
  { exfalso; rewrite A3, B3, E in H; lia. }
  pose proof (G q p l k B1 A1 A2 B3 A3 X); lia.
Qed.
Lemma ply_at_inj pdl p q k : ply_at pdl p k -> ply_at pdl q k -> p = q.
Proof.
  intros H1 H2; destruct (Z.lt_trichotomy p q) as [H|[|H]]; auto.
  - apply (ply_at_mono _ _ _ _ _ H1 H2) in H; lia.
  - apply (ply_at_mono _ _ _ _ _ H2 H1) in H; lia.
Qed.

(** round trips *)
Lemma roundtrip2 pos pdl r :
  NoDup pos -> (forall k, In k pos -> 1 <= k <= Z.of_nat (countb kept pdl)) ->
  pos_in_ss_ref_to_pos_in_sst pos pdl = Ok r -> pos_in_sst_to_pos_in_panel_2 r pdl = Ok pos.
Proof.
  intros Hn Hr E; destruct (pos_ref_spec pos pdl Hn Hr) as [r' [E' F]].
  rewrite E in E'; injection E' as <-.
  unfold pos_in_sst_to_pos_in_panel_2. clear E Hn Hr.
  induction F as [|p k r pos [H1 [H2 H3]] F IH]; cbn [mapR]; auto.
  assert (get pdl (p - 1) = Ok (nth (Z.to_nat (p - 1)) pdl (-1))) as ->.
  { replace (p - 1) with (Z.of_nat (Z.to_nat (p - 1))) at 1 by lia. apply get_ok.
    unfold zlen in H1; lia. }
  cbn [bind]; apply kept_true in H2; rewrite H2, IH; cbn [bind].
  unfold py_prefix; destruct (Z.leb_spec 0 p); [|lia]. rewrite <- H3; auto.
Qed.

Lemma roundtrip1 pos pdl r :
  StronglySorted Z.lt pos -> (forall k, In k pos -> 1 <= k <= Z.of_nat (countb kept pdl)) ->
  pos_in_ss_ref_to_pos_in_sst pos pdl = Ok r ->
  StronglySorted Z.lt r /\ pos_in_sst_to_pos_in_panel r pdl = Ok pos.
Proof.
  intros Hs Hr E.
  destruct (pos_ref_spec pos pdl (ssorted_lt_nodup _ Hs) Hr) as [r' [E' F]].
  rewrite E in E'; injection E' as <-.
  assert (Sr : StronglySorted Z.lt r).
  { clear E Hr. induction F as [|p k r pos H F IH]; constructor; inversion Hs; subst; auto.
    apply Forall_forall; intros q Hq. apply (In_nth _ _ 0) in Hq; destruct Hq as [i [Hi <-]].
    pose proof (Forall2_nth _ _ _ 0 0 F i Hi) as X.
    apply (ply_at_mono _ _ _ _ _ H X). rewrite Forall_forall in H3; apply H3, nth_In.
    rewrite <- (Forall2_len _ _ _ F); auto. }
  split; auto. rewrite pos_panel_spec; auto.
  - f_equal. clear E Hr Hs Sr. induction F as [|p k r pos [H1 [H2 H3]] F IH]; auto.
    cbn [filter]. apply kept_true in H2; rewrite H2. cbn [map]; rewrite IH, <- H3; auto.
  - clear - F. induction F as [|p k r pos [H1 _] F IH]; [intros p []|]; intros q [<-|Hq]; auto.
Qed.

(* ------------------------------------------------------------------ *)
(** * C23 *)
Lemma set_column_length ind v sst pdl : length sst = length pdl ->
  length (set_column ind v sst pdl) = length sst.
Proof. intros H; unfold set_column; rewrite map_length, combine_length; lia. Qed.

Lemma set_column_nth ind v sst pdl i : length sst = length pdl -> (i < length pdl)%nat ->
  nth i (set_column ind v sst pdl) [] =
  if kept (nth ind (nth i pdl []) (-1)) then upd ind v (nth i sst []) else nth i sst [].
Proof.
  intros L Hi; unfold set_column.
  set (f := fun sp : list Z * list Z => _).
  rewrite (nth_indep _ [] (f ([], []))) by (rewrite map_length, combine_length; lia).
  rewrite map_nth, combine_nth by auto. reflexivity.
Qed.

Lemma guide_loop_spec n pdl : rect n pdl -> forall todo ind sst,
  (ind + length todo <= n)%nat -> length sst = length pdl -> rect n sst ->
  exists r, guide_loop n ind todo pdl sst = Ok r /\ length r = length pdl /\ rect n r /\
    forall i j, (i < length pdl)%nat ->
      nth j (nth i r []) (-1) =
      if (Nat.leb ind j && Nat.ltb j (ind + length todo) && kept (nth j (nth i pdl []) (-1)))%bool
      then nth (j - ind) todo (-1) else nth j (nth i sst []) (-1).
Proof.
  intros Hrect; induction todo as [|v t IH]; intros ind sst Hl L R; cbn [guide_loop].
  - exists sst; split; auto; split; auto; split; auto; intros i j Hi.
    destruct (Nat.leb_spec ind j); cbn [andb]; auto.
    destruct (Nat.ltb_spec j (ind + length (@nil Z))); cbn [length andb] in *; auto; lia.
  - cbn [length] in Hl. destruct (Nat.ltb_spec ind n) as [_|]; [|lia].
    assert (L' : length (set_column ind v sst pdl) = length pdl) by (rewrite set_column_length; auto).
    assert (R' : rect n (set_column ind v sst pdl)).
    { intros r Hin; apply (In_nth _ _ []) in Hin; destruct Hin as [i [Hi <-]].
      rewrite set_column_nth by lia.
      destruct (kept _); rewrite ?upd_length; apply R, nth_In; lia. }
    destruct (IH (S ind) _ ltac:(lia) L' R') as [r [-> [Lr [Rr H]]]].
    exists r; split; auto; split; auto; split; auto; intros i j Hi; rewrite H by auto.
    rewrite set_column_nth by auto.
    destruct (Nat.leb_spec (S ind) j).
    + destruct (Nat.leb_spec ind j); [|lia]. cbn [andb].
      replace (ind + S (length t))%nat with (S ind + length t)%nat by lia. cbn [length].
      replace (ind + S (length t))%nat with (S ind + length t)%nat by lia.
      destruct (Nat.ltb j (S ind + length t) && kept (nth j (nth i pdl []) (-1)))%bool.
      * replace (j - ind)%nat with (S (j - S ind)) by lia; auto.
      * destruct (kept (nth ind (nth i pdl []) (-1))); auto. rewrite nth_upd.
        destruct (Nat.eqb_spec ind j); [lia|]; auto.
    + cbn [andb]. destruct (Nat.leb_spec ind j).
      * assert (j = ind) as -> by lia. rewrite Nat.sub_diag; cbn [nth andb length].
        destruct (Nat.ltb_spec ind (ind + S (length t))); [|lia]; cbn [andb].
        destruct (kept (nth ind (nth i pdl []) (-1))) eqn:K; auto.
        rewrite nth_upd, Nat.eqb_refl.
        destruct (Nat.ltb_spec ind (length (nth i sst []))) as [|G]; auto.
        assert (In (nth i sst []) sst) as X by (apply nth_In; lia). apply R in X; lia.
      * cbn [andb]. destruct (kept (nth ind (nth i pdl []) (-1))); auto.
        rewrite nth_upd; destruct (Nat.eqb_spec ind j); [lia|]; auto.
Qed.

Lemma blank_spec n pdl : rect n pdl ->
  length (blank pdl) = length pdl /\ rect n (blank pdl) /\
  forall i j, nth j (nth i (blank pdl) []) (-1) = -1.
Proof.
  intros R; unfold blank; split; [apply map_length|]; split.
  - intros r Hin; apply in_map_iff in Hin; destruct Hin as [x [<- Hx]]; rewrite map_length; auto.
  - intros i j; set (f := fun _ : Z => -1).
    change (@nil Z) with (map f []) at 1; rewrite (map_nth (map f)).
    change (-1) with (f 0) at 1; rewrite (map_nth f); auto.
Qed.

Lemma width_rect n pdl : rect n pdl -> pdl <> [] -> width pdl = n.
Proof. intros R H; unfold width; destruct pdl; [congruence|]; apply R; left; auto. Qed.

Lemma guide_to_sst_entries n guide pdl : rect n pdl -> pdl <> [] -> (length guide <= n)%nat ->
  exists sst, convert_ss_guide_to_sst guide pdl = Ok sst /\ length sst = length pdl /\ rect n sst /\
    forall i j, (i < length pdl)%nat ->
      nth j (nth i sst []) (-1) =
      if (Nat.ltb j (length guide) && kept (nth j (nth i pdl []) (-1)))%bool
      then nth j guide (-1) else -1.
Proof.
  intros R Hne Hl; unfold convert_ss_guide_to_sst; rewrite (width_rect n) by auto.
  destruct (blank_spec n pdl R) as [B1 [B2 B3]].
  destruct (guide_loop_spec n pdl R guide 0 (blank pdl) Hl B1 B2) as [r [E [L [Rr H]]]].
  exists r; split; auto; split; auto; split; auto; intros i j Hi; rewrite H by auto.
  cbn [Nat.leb Nat.add andb]; rewrite B3, Nat.sub_0_r; auto.
Qed.

Lemma guide_too_long n guide pdl : rect n pdl -> pdl <> [] -> (n < length guide)%nat ->
  convert_ss_guide_to_sst guide pdl = Err IndexError.
Proof.
  intros R Hne Hl; unfold convert_ss_guide_to_sst; rewrite (width_rect n) by auto.
  clear R Hne. assert (G : forall todo ind sst, (n < ind + length todo)%nat -> (ind <= n)%nat ->
    guide_loop n ind todo pdl sst = Err IndexError); [|apply G; lia].
  induction todo as [|v t IH]; intros ind sst H1 H2; cbn [guide_loop length] in *; [lia|].
  destruct (Nat.ltb_spec ind n); auto. apply IH; lia.
Qed.

(** a row is the guide where kept, -1 elsewhere *)
Definition masked (guide p : list Z) : list Z :=
  map (fun gp => if kept (snd gp) then fst gp else -1) (combine guide p).

Lemma masked_filter guide p : length guide = length p -> ~ In (-1) guide ->
  filter kept (masked guide p) = selected guide p.
Proof.
  unfold masked, selected; revert p; induction guide as [|g t IH]; intros [|x p] L H; cbn [combine map filter fst snd] in *; auto.
  destruct (kept x) eqn:E.
  - cbn [map fst]. assert (kept g = true) as ->.
    { apply kept_true; intros ->; apply H; left; auto. }
    f_equal. apply IH; [cbn in L; lia | intros X; apply H; right; auto].
  - cbn. apply IH; [cbn in L; lia | intros X; apply H; right; auto].
Qed.
Lemma masked_nth guide p j : length guide = length p ->
  nth j (masked guide p) (-1) = if kept (nth j p (-1)) then nth j guide (-1) else -1.
Proof.
  unfold masked; revert p j; induction guide as [|g t IH]; intros [|x p] j L; cbn [length] in L; try lia.
  - destruct j; cbn; auto.
  - cbn [combine map fst snd]. destruct j; cbn [nth]; auto.
Qed.
Lemma masked_length guide p : length guide = length p -> length (masked guide p) = length p.
Proof. intros L; unfold masked; rewrite map_length, combine_length; lia. Qed.

Lemma guide_to_sst_masked n guide pdl : rect n pdl -> pdl <> [] -> length guide = n ->
  convert_ss_guide_to_sst guide pdl = Ok (map (masked guide) pdl).
Proof.
  intros R Hne L. destruct (guide_to_sst_entries n guide pdl R Hne ltac:(lia)) as [sst [E [Ls [Rs H]]]].
  rewrite E; f_equal. apply (list_ext _ _ []); [rewrite map_length; auto|].
  intros i Hi; assert (Hi' : (i < length pdl)%nat) by lia.
  rewrite (nth_indep (map (masked guide) pdl) [] (masked guide [])) by (rewrite map_length; auto).
  rewrite map_nth.
  assert (Lp : length (nth i pdl []) = n) by (apply R, nth_In; auto).
  assert (Lr : length (nth i sst []) = n) by (apply Rs, nth_In; auto).
  apply (list_ext _ _ (-1)); [rewrite masked_length; lia|].
  intros j Hj; rewrite H by auto. rewrite masked_nth by lia.
  destruct (Nat.ltb_spec j (length guide)); [auto | lia].
Qed.

Lemma selected_length guide p : length guide = length p ->
  length (selected guide p) = countb kept p.
Proof.
  intros L; unfold selected, countb; rewrite map_length.
  revert p L; induction guide as [|g t IH]; intros [|x p] L; cbn in *; try lia; auto.
  destruct (kept x); cbn; rewrite IH; auto.
Qed.
Lemma selected_full guide p : length guide = length p -> ~ In (-1) p -> selected guide p = guide.
Proof.
  unfold selected; revert p; induction guide as [|g t IH]; intros [|x p] L H; cbn in *; try lia; auto.
  assert (kept x = true) as -> by (apply kept_true; intros ->; apply H; left; auto).
  cbn; f_equal; apply IH; [lia | tauto].
Qed.
Lemma selected_in guide p a : In a (selected guide p) -> In a guide.
Proof.
  unfold selected; intros H; apply in_map_iff in H; destruct H as [[g x] [<- H]].
  apply filter_In in H; destruct H as [H _]; apply in_combine_l in H; auto.
Qed.
Lemma selected_nested guide thin thick : length guide = length thick -> nested thin thick ->
  subseq (selected guide thin) (selected guide thick).
Proof.
  unfold nested, selected; revert thin thick; induction guide as [|g t IH]; intros thin thick L [L2 N].
  - constructor.
  - destruct thick as [|y thick]; [cbn in L; lia|]. destruct thin as [|x thin]; [cbn in L2; lia|].
    cbn [combine filter snd].
    assert (IHt : subseq (map fst (filter (fun gp => kept (snd gp)) (combine t thin)))
                         (map fst (filter (fun gp => kept (snd gp)) (combine t thick)))).
    { apply IH; [cbn in L; lia|]. split; [cbn in L2; lia|]. intros j; apply (N (S j)). }
    specialize (N 0%nat); cbn in N.
    destruct (kept x) eqn:Ex, (kept y) eqn:Ey; cbn [map fst].
    + apply sub_keep; auto.
    + apply kept_false in Ey; apply kept_true in Ex; tauto.
    + apply sub_skip; auto.
    + auto.
Qed.

(** a table is blended over the layout [pdl]: it has the same drops and one angle per column *)
Definition blended_over (pdl sst : list (list Z)) : Prop :=
  length sst = length pdl /\
  (forall i, (i < length pdl)%nat -> length (nth i sst []) = length (nth i pdl [])) /\
  (forall i j, (i < length pdl)%nat -> nth j (nth i sst []) (-1) = -1 <-> nth j (nth i pdl []) (-1) = -1) /\
  (forall i1 i2 j, (i1 < length pdl)%nat -> (i2 < length pdl)%nat ->
     nth j (nth i1 sst []) (-1) <> -1 -> nth j (nth i2 sst []) (-1) <> -1 ->
     nth j (nth i1 sst []) (-1) = nth j (nth i2 sst []) (-1)).

Lemma filter_kept_all l : ~ In (-1) l -> filter kept l = l.
Proof.
  induction l as [|a t IH]; intros H; cbn [filter]; auto.
  assert (kept a = true) as -> by (apply kept_true; intros ->; apply H; left; auto).
  f_equal; apply IH; intros X; apply H; right; auto.
Qed.

Lemma last_nth_gen {A} (l : list A) d : l <> [] -> last l d = nth (length l - 1) l d.
Proof.
  intros H; destruct (exists_last H) as [l' [x ->]].
  rewrite last_last, app_length; cbn [length].
  rewrite app_nth2 by lia; replace (length l' + 1 - 1 - length l')%nat with 0%nat by lia; auto.
Qed.

Lemma get_last {A} (l : list A) d : l <> [] -> get l (-1) = Ok (last l d).
Proof.
  intros H; unfold get, py_get. destruct (Z.leb_spec 0 (-1)); [lia|].
  assert (1 <= zlen l) by (unfold zlen; destruct l; [congruence|]; cbn [length]; lia).
  destruct (Z.leb_spec (- zlen l) (-1)); [|lia].
  rewrite (nth_error_nth' l d) by (unfold zlen in *; lia).
  rewrite last_nth_gen by auto. do 2 f_equal; unfold zlen; lia.
Qed.

Lemma sst_ss_sst n pdl sst : rect n pdl -> pdl <> [] -> blended_over pdl sst ->
  ~ In (-1) (last pdl []) ->
  convert_ss_to_sst (convert_sst_to_ss sst) pdl = Ok sst.
Proof.
  intros R Hne [B1 [B2 [B3 B4]]] Hl. unfold convert_ss_to_sst.
  assert (Hne' : convert_sst_to_ss sst <> []).
  { unfold convert_sst_to_ss; destruct sst; [destruct pdl; [congruence|cbn in B1; lia]|discriminate]. }
  rewrite (get_last _ []) by auto; cbn [bind].
  set (m := (length pdl - 1)%nat).
  assert (Hm : (m < length pdl)%nat) by (unfold m; destruct pdl; [congruence|cbn; lia]).
  rewrite last_nth_gen by auto. unfold convert_sst_to_ss; rewrite map_length, B1; fold m.
  change (@nil Z) with (filter kept []) at 1; rewrite (map_nth (filter kept)).
  rewrite last_nth_gen in Hl by auto; fold m in Hl.
  assert (Lm : length (nth m pdl []) = n) by (apply R, nth_In; auto).
  assert (Hfull : ~ In (-1) (nth m sst [])).
  { intros X; apply (In_nth _ _ (-1)) in X; destruct X as [j [Hj Ej]].
    apply B3 in Ej; auto. apply Hl. rewrite <- Ej; apply nth_In. rewrite <- B2; auto. }
  rewrite filter_kept_all by auto.
  assert (Lms : length (nth m sst []) = n) by (rewrite B2; auto).
  rewrite (guide_to_sst_masked n) by auto. f_equal.
  apply (list_ext _ _ []); [rewrite map_length; auto|]. rewrite map_length; intros i Hi.
  rewrite (nth_indep (map _ pdl) [] (masked (nth m sst []) [])) by (rewrite map_length; auto).
  rewrite map_nth.
  assert (Lp : length (nth i pdl []) = n) by (apply R, nth_In; auto).
  apply (list_ext _ _ (-1)); [rewrite masked_length, B2; auto; lia|].
  intros j Hj; rewrite masked_length in Hj by lia. rewrite masked_nth by lia.
  destruct (kept (nth j (nth i pdl []) (-1))) eqn:K.
  - apply kept_true in K. apply B4; auto.
    + intros X; apply Hfull; rewrite <- X; apply nth_In; lia.
    + intros X; apply B3 in X; auto.
  - apply kept_false in K; symmetry; apply B3; auto.
Qed.

(* ------------------------------------------------------------------ *)
(** * C24 *)
Lemma ref_columns_spec n ref : forall k col pos ss_ref sst,
  rect n sst -> (ref < length sst)%nat -> (col + k = n)%nat ->
  let refrow := nth ref sst [] in
  (pos + countb kept (skipn col refrow) <= length ss_ref)%nat ->
  (forall a, In a ss_ref -> a <> -1) ->
  exists r, ref_columns k col pos ss_ref ref sst = Ok r /\ length r = length sst /\ rect n r /\
    forall i j, (i < length sst)%nat ->
      nth j (nth i r []) (-1) =
      if (Nat.leb col j && kept (nth j refrow (-1)) && kept (nth j (nth i sst []) (-1)))%bool
      then nth (pos + countb kept (slice col j refrow)) ss_ref (-1)
      else nth j (nth i sst []) (-1).
Proof.
  induction k as [|k IH]; intros col pos ss_ref sst R Hr Hn; cbn zeta; intros Hc Ha; cbn [ref_columns].
  - exists sst; split; auto; split; auto; split; auto; intros i j Hi.
    destruct (Nat.leb_spec col j) as [Hj|]; cbn [andb]; auto.
    rewrite (nth_overflow (nth ref sst [])) by (rewrite (R (nth ref sst [])) by (apply nth_In; auto); lia).
    reflexivity.
  - rewrite (row_ok sst ref []) by auto; cbn [bind].
    set (refrow := nth ref sst []) in *.
    assert (Lref : length refrow = n) by (apply R, nth_In; auto).
    assert (Sk : skipn col refrow = nth col refrow (-1) :: skipn (S col) refrow).
    { apply skipn_cons_nth; lia. }
    rewrite Sk, countb_cons in Hc.
    assert (Sl : forall j, (col < j)%nat -> slice col j refrow = nth col refrow (-1) :: slice (S col) j refrow).
    { intros j Hj; unfold slice; rewrite Sk. replace (j - col)%nat with (S (j - S col)) by lia; auto. }
    destruct (kept (nth col refrow (-1))) eqn:K.
    + cbn [Nat.b2n] in Hc. rewrite (row_ok ss_ref pos (-1)) by lia; cbn [bind].
      set (v := nth pos ss_ref (-1)).
      set (f := fun r => if kept (nth col r (-1)) then upd col v r else r).
      assert (Hv : v <> -1) by (apply Ha, nth_In; lia).
      assert (Nf : forall i, nth i (map f sst) [] = f (nth i sst [])).
      { intros i. assert (f0 : f [] = []) by (unfold f; destruct (kept (nth col [] (-1))); destruct col; reflexivity).
        rewrite <- f0 at 1; apply map_nth. }
      assert (Lf : forall r, length (f r) = length r).
      { intros r; unfold f; destruct (kept (nth col r (-1))); auto; apply upd_length. }
      assert (Rf : rect n (map f sst)).
      { intros r Hin; apply in_map_iff in Hin; destruct Hin as [x [<- Hx]]; rewrite Lf; auto. }
      assert (Ff : forall r j, (col < length r)%nat \/ length r = 0%nat -> nth j (f r) (-1) =
        if (Nat.eqb col j && kept (nth j r (-1)))%bool then v else nth j r (-1)).
      { intros r j Hlr; unfold f. destruct (Nat.eqb_spec col j) as [<-|Hne]; cbn [andb].
        - destruct (kept (nth col r (-1))) eqn:Kr; auto. rewrite nth_upd, Nat.eqb_refl; cbn [andb].
          destruct (Nat.ltb_spec col (length r)); auto.
          rewrite nth_overflow in Kr by lia; discriminate.
        - destruct (kept (nth col r (-1))); auto. rewrite nth_upd.
          destruct (Nat.eqb_spec col j); [lia|]; auto. }
      assert (Hrr : (ref < length (map f sst))%nat) by (rewrite map_length; auto).
      assert (Sf : skipn (S col) (nth ref (map f sst) []) = skipn (S col) refrow).
      { rewrite Nf; fold refrow; apply (list_ext _ _ (-1)); [rewrite !skipn_length, Lf; auto|].
        intros j _; rewrite !nth_skipn, Ff by lia. destruct (Nat.eqb_spec col (S col + j)); [lia|]; auto. }
      destruct (IH (S col) (S pos) ss_ref (map f sst) Rf Hrr ltac:(lia)) as [r [-> [Lr [Rr H]]]];
        [rewrite Sf; lia | auto |].
      rewrite map_length in Lr, H. exists r; split; auto; split; auto; split; auto.
      intros i j Hi; rewrite H by auto. rewrite !Nf; fold refrow.
      assert (Li : length (nth i sst []) = n) by (apply R, nth_In; auto).
      rewrite !Ff by lia.
      destruct (Nat.leb_spec (S col) j).
      * destruct (Nat.leb_spec col j); [|lia]. cbn [andb].
        destruct (Nat.eqb_spec col j); [lia|]; cbn [andb].
        destruct (kept (nth j refrow (-1)) && kept (nth j (nth i sst []) (-1)))%bool; auto.
        rewrite (Sl j) by lia. rewrite countb_cons, K; cbn [Nat.b2n].
        f_equal. rewrite <- Nat.add_succ_comm. f_equal.
        assert (slice (S col) j (f refrow) = slice (S col) j refrow) as ->; [|lia].
        unfold slice; rewrite Nf in Sf; fold refrow in Sf; rewrite Sf; auto.
      * cbn [andb]. destruct (Nat.leb_spec col j).
        -- assert (j = col) as -> by lia. rewrite Nat.eqb_refl, K; cbn [andb].
           destruct (kept (nth col (nth i sst []) (-1))) eqn:Ki; auto.
           unfold slice; rewrite Nat.sub_diag; cbn [firstn]. unfold countb; cbn [filter length].
           rewrite Nat.add_0_r; auto.
        -- destruct (Nat.eqb_spec col j); [lia|]; auto.
    + cbn [Nat.b2n] in Hc. destruct (IH (S col) pos ss_ref sst R Hr ltac:(lia)) as [r [-> [Lr [Rr H]]]];
        [fold refrow; lia | auto |]. fold refrow in H.
      exists r; split; auto; split; auto; split; auto; intros i j Hi; rewrite H by auto.
      destruct (Nat.leb_spec (S col) j).
      * destruct (Nat.leb_spec col j); [|lia]; cbn [andb].
        rewrite (Sl j) by lia; rewrite countb_cons, K; cbn [Nat.b2n Nat.add]; auto.
      * destruct (Nat.leb_spec col j); cbn [andb]; auto.
        assert (j = col) as -> by lia. rewrite K; auto.
Qed.

(** reading a line back: the kept entries, in order *)
Lemma filter_by_rank (p : list Z) (vals r : list Z) :
  length r = length p -> length vals = countb kept p ->
  (forall a, In a vals -> a <> -1) ->
  (forall j, (j < length p)%nat -> nth j r (-1) =
     if kept (nth j p (-1)) then nth (countb kept (firstn j p)) vals (-1) else -1) ->
  filter kept r = vals.
Proof.
  revert vals r; induction p as [|x p IH]; intros vals r L Lv Ha H.
  - destruct r; [|discriminate]; destruct vals; auto; discriminate.
  - destruct r as [|y r]; [discriminate|]. rewrite countb_cons in Lv.
    pose proof (H 0%nat ltac:(cbn; lia)) as H0; cbn [nth firstn] in H0.
    change (countb kept []) with 0%nat in H0.
    destruct (kept x) eqn:Ex.
    + destruct vals as [|v vals]; [cbn in Lv; lia|]. cbn [nth] in H0; subst y.
      cbn [filter]. assert (kept v = true) as -> by (apply kept_true, Ha; left; auto).
      f_equal; apply IH; [cbn in L; lia | cbn in Lv; lia | intros; apply Ha; right; auto |].
      intros j Hj; specialize (H (S j) ltac:(cbn; lia)); cbn [nth firstn] in H.
      rewrite countb_cons, Ex in H; exact H.
    + subst y; cbn [filter]. change (kept (-1)) with false; cbv iota.
      apply IH; [cbn in L; lia | cbn in Lv; lia | auto |].
      intros j Hj; specialize (H (S j) ltac:(cbn; lia)); cbn [nth firstn] in H.
      rewrite countb_cons, Ex in H; exact H.
Qed.

Section C24.
Variables (n : nat) (pdl ss_before : list (list Z)) (g ss_ref : list Z) (ref : nat).
Hypothesis R : rect n pdl.
Hypothesis Hne : pdl <> [].
Hypothesis Hg : get ss_before (-1) = Ok g.
Hypothesis Lg : length g = n.
Hypothesis Ng : ~ In (-1) g.
Hypothesis Href : (ref < length pdl)%nat.
Hypothesis Lr : length ss_ref = countb kept (nth ref pdl []).
Hypothesis Nr : ~ In (-1) ss_ref.

Lemma kept_masked i j : (i < length pdl)%nat ->
  kept (nth j (masked g (nth i pdl [])) (-1)) = kept (nth j (nth i pdl []) (-1)).
Proof.
  intros Hi; assert (Lp : length (nth i pdl []) = n) by (apply R, nth_In; auto).
  rewrite masked_nth by lia. destruct (kept (nth j (nth i pdl []) (-1))) eqn:K; auto.
  apply kept_true; intros X; apply Ng; rewrite <- X; apply nth_In.
  destruct (Nat.lt_ge_cases j (length (nth i pdl []))); [lia|].
  rewrite nth_overflow in K by lia; discriminate.
Qed.

Lemma countb_masked p : length g = length p -> forall a b,
  countb kept (firstn a (skipn b (masked g p))) = countb kept (firstn a (skipn b p)).
Proof.
  intros L a b.
  assert (E : map kept (masked g p) = map kept p).
  { apply (nth_ext _ _ false false); [rewrite !map_length, masked_length; auto|].
    intros j Hj; rewrite map_length in Hj.
    change false with (kept (-1)); rewrite !map_nth.
    rewrite masked_nth by auto. destruct (kept (nth j p (-1))) eqn:K; auto.
    apply kept_true; intros X; apply Ng; rewrite <- X; apply nth_In.
    rewrite masked_length in Hj; lia. }
  assert (C : forall l, countb kept l = countb (fun b : bool => b) (map kept l)).
  { clear; induction l as [|x t IH]; auto. cbn [map]; rewrite !countb_cons, IH; auto. }
  rewrite !C, <- !firstn_map, <- !skipn_map, E; auto.
Qed.

Lemma ref_to_sst_spec :
  exists sst, convert_ss_ref_to_reduced_sst ss_ref ref pdl ss_before = Ok sst /\
    length sst = length pdl /\ rect n sst /\
    (forall i j, (i < length pdl)%nat -> (j < n)%nat -> nth j (nth i sst []) (-1) =
       if kept (nth j (nth i pdl []) (-1)) then
         if kept (nth j (nth ref pdl []) (-1))
         then nth (countb kept (firstn j (nth ref pdl []))) ss_ref (-1)
         else nth j g (-1)
       else -1) /\
    filter kept (nth ref sst []) = ss_ref /\
    blended_over pdl sst.
Proof.
  unfold convert_ss_ref_to_reduced_sst, convert_ss_to_sst; rewrite Hg; cbn [bind].
  rewrite (guide_to_sst_masked n) by auto; cbn [bind]. rewrite (width_rect n) by auto.
  set (sst0 := map (masked g) pdl).
  assert (L0 : length sst0 = length pdl) by apply map_length.
  assert (N0 : forall i, (i < length pdl)%nat -> nth i sst0 [] = masked g (nth i pdl [])).
  { intros i Hi; unfold sst0. rewrite (nth_indep _ [] (masked g [])) by (rewrite map_length; auto). apply map_nth. }
  assert (Lp : forall i, (i < length pdl)%nat -> length (nth i pdl []) = n) by (intros; apply R, nth_In; auto).
  assert (R0 : rect n sst0).
  { intros r Hin; apply in_map_iff in Hin; destruct Hin as [p [<- Hp]].
    rewrite masked_length; rewrite (R p Hp); auto. }
  destruct (ref_columns_spec n ref n 0 0 ss_ref sst0 R0 ltac:(lia) eq_refl) as [r [E [Lr' [Rr H]]]].
  { rewrite N0 by auto. pose proof (countb_masked (nth ref pdl []) ltac:(rewrite Lp; auto) n 0) as C.
    cbn [skipn] in *. rewrite !firstn_all2 in C by (rewrite ?masked_length; rewrite Lp; auto; lia).
    rewrite C; lia. }
  { intros a Ha ->; auto. }
  exists r; split; [exact E|]; split; [lia|]; split; auto.
  assert (Ent : forall i j, (i < length pdl)%nat -> (j < n)%nat -> nth j (nth i r []) (-1) =
       if kept (nth j (nth i pdl []) (-1)) then
         if kept (nth j (nth ref pdl []) (-1))
         then nth (countb kept (firstn j (nth ref pdl []))) ss_ref (-1)
         else nth j g (-1)
       else -1).
  { intros i j Hi Hj; rewrite H by lia. rewrite !N0, !kept_masked by auto. cbn [Nat.leb andb Nat.add].
    rewrite masked_nth by (rewrite Lp; auto).
    destruct (kept (nth j (nth ref pdl []) (-1))), (kept (nth j (nth i pdl []) (-1))); cbn [andb]; auto.
    unfold slice; rewrite Nat.sub_0_r, countb_masked by (rewrite Lp; auto); auto. }
  split; auto.
  assert (Lri : forall i, (i < length pdl)%nat -> length (nth i r []) = n) by (intros; apply Rr, nth_In; lia).
  assert (Rk : forall j, (j < n)%nat -> kept (nth j (nth ref pdl []) (-1)) = true ->
     nth (countb kept (firstn j (nth ref pdl []))) ss_ref (-1) <> -1).
  { intros j Hj K X; apply Nr; rewrite <- X; apply nth_In; rewrite Lr.
    pose proof (countb_firstn_S (nth ref pdl []) j ltac:(rewrite Lp; auto)) as C; rewrite K in C.
    pose proof (countb_firstn_mono (nth ref pdl []) (S j) n ltac:(lia)) as M.
    rewrite (firstn_all2 (n := n)) in M by (rewrite Lp; auto). lia. }
  split.
  - apply (filter_by_rank (nth ref pdl [])); auto; [rewrite Lri, Lp; auto | intros a Ha ->; auto |].
    intros j Hj; rewrite Lp in Hj by auto; rewrite Ent by auto.
    destruct (kept (nth j (nth ref pdl []) (-1))); auto.
  - split; [lia|]; split; [intros i Hi; rewrite Lri, Lp; auto|].
    assert (Big : forall i j, (n <= j)%nat -> (i < length pdl)%nat ->
       nth j (nth i r []) (-1) = -1 /\ nth j (nth i pdl []) (-1) = -1).
    { intros i j Hj Hi; split; apply nth_overflow; rewrite ?Lri, ?Lp; auto. }
    split.
    + intros i j Hi; destruct (Nat.lt_ge_cases j n) as [Hj|Hj]; [|destruct (Big i j Hj Hi); tauto].
      rewrite Ent by auto. destruct (kept (nth j (nth i pdl []) (-1))) eqn:K.
      * apply kept_true in K; split; [|tauto]. intros X; exfalso.
        destruct (kept (nth j (nth ref pdl []) (-1))) eqn:K2; [eapply Rk; eauto|].
        apply Ng; rewrite <- X; apply nth_In; lia.
      * apply kept_false in K; tauto.
    + intros i1 i2 j H1 H2; destruct (Nat.lt_ge_cases j n) as [Hj|Hj]; [|destruct (Big i1 j Hj H1); tauto].
      rewrite !Ent by auto.
      destruct (kept (nth j (nth i1 pdl []) (-1))), (kept (nth j (nth i2 pdl []) (-1))); tauto.
Qed.
End C24.

(** a table built from the guide is blended over its layout *)
Lemma guide_to_sst_blended n guide pdl : rect n pdl -> pdl <> [] -> length guide = n -> ~ In (-1) guide ->
  blended_over pdl (map (masked guide) pdl).
Proof.
  intros R Hne L Ng.
  assert (Lp : forall i, (i < length pdl)%nat -> length (nth i pdl []) = n) by (intros; apply R, nth_In; auto).
  assert (N0 : forall i, (i < length pdl)%nat -> nth i (map (masked guide) pdl) [] = masked guide (nth i pdl [])).
  { intros i Hi. rewrite (nth_indep _ [] (masked guide [])) by (rewrite map_length; auto). apply map_nth. }
  split; [apply map_length|]; split; [|split].
  - intros i Hi; rewrite N0, masked_length; auto; rewrite Lp; auto.
  - intros i j Hi; rewrite N0, masked_nth by (auto; rewrite Lp; auto).
    destruct (kept (nth j (nth i pdl []) (-1))) eqn:K; [|apply kept_false in K; tauto].
    apply kept_true in K; split; [|tauto]. intros X; exfalso; apply Ng; rewrite <- X; apply nth_In.
    destruct (Nat.lt_ge_cases j n); [lia|]. exfalso; apply K, nth_overflow; rewrite Lp; auto.
  - intros i1 i2 j H1 H2; rewrite !N0, !masked_nth by (auto; rewrite Lp; auto).
    destruct (kept (nth j (nth i1 pdl []) (-1))), (kept (nth j (nth i2 pdl []) (-1))); tauto.
Qed.

(** in a blended table with nested layout lines the thinner stack is a part of the thicker one *)
Lemma blended_subseq pdl sst i1 i2 : blended_over pdl sst ->
  (i1 < length pdl)%nat -> (i2 < length pdl)%nat -> nested (nth i1 pdl []) (nth i2 pdl []) ->
  subseq (filter kept (nth i1 sst [])) (filter kept (nth i2 sst [])).
Proof.
  intros [B1 [B2 [B3 B4]]] H1 H2 [N1 N2].
  assert (L : length (nth i1 sst []) = length (nth i2 sst [])) by (rewrite !B2; auto).
  assert (E : forall j, nth j (nth i1 sst []) (-1) = -1 \/
     nth j (nth i1 sst []) (-1) = nth j (nth i2 sst []) (-1)).
  { intros j; destruct (Z.eq_dec (nth j (nth i1 sst []) (-1)) (-1)) as [|X]; auto; right.
    apply B4; auto; intros Y; apply B3 in Y; auto; apply X, B3; auto. }
  revert L E; generalize (nth i1 sst []) as s, (nth i2 sst []) as l; clear.
  induction s as [|a s IH]; intros [|b l] L E; try discriminate; [constructor|].
  assert (IHs : subseq (filter kept s) (filter kept l)).
  { apply IH; [cbn in L; lia|]. intros j; apply (E (S j)). }
  specialize (E 0%nat); cbn in E. cbn [filter].
  destruct (kept a) eqn:Ka.
  - apply kept_true in Ka as Ka'. destruct E as [|<-]; [congruence|]. rewrite Ka; apply sub_keep; auto.
  - destruct (kept b); [apply sub_skip|]; auto.
Qed.

Lemma subseq_nil_l {A} (l : list A) : subseq [] l.
Proof. induction l; [apply sub_nil | apply sub_skip; auto]. Qed.

Lemma selected_subseq guide p : subseq (selected guide p) guide.
Proof.
  unfold selected; revert p; induction guide as [|g t IH]; intros [|x p]; cbn [combine filter map].
  - apply sub_nil.
  - apply sub_nil.
  - apply subseq_nil_l.
  - cbn [snd]. destruct (kept x); cbn [map fst]; [apply sub_keep | apply sub_skip]; apply IH.
Qed.
