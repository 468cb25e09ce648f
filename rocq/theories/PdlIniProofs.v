(* PdlIniProofs.v - lemmas on the initial ply-drop layouts. *)
From Coq Require Import Permutation.
From Verif Require Import Base Uniq Divers Strip Spacing SpacingProofs Format FormatProofs PdlTools PdlToolsProofs Search SearchProofs PdlGroup PdlGroupProofs Properties_pdlgroup PdlIni.
Local Open Scope Z_scope.

Definition size_of (a : ini_args) (g : nat) : Z := nth g (i_sizes a) 0.
Definition plies_of (a : ini_args) (i g : nat) : Z := nth g (nth i (i_panels a) []) 0.
Definition drops_of (a : ini_args) (g : nat) : list Z := map (fun p => size_of a g - nth g p 0) (i_panels a).

(** plies of x dropped are dropped in y *)
Definition thinner (x y : list Z) : Prop := Forall2 (fun u v => u = -1 -> v = -1) x y.

Definition fits (a : ini_args) : Prop :=
  forall p, In p (i_panels a) -> Forall2 (fun s x => 0 <= x <= s) (i_sizes a) p.

Lemma calc_ply_drops_ok a g : fits a -> (g < length (i_sizes a))%nat -> calc_ply_drops a g = Ok (drops_of a g).
Proof.
  intros F Hg. unfold calc_ply_drops, drops_of. apply mapR_map. intros p Hp. specialize (F p Hp). apply Forall2_len in F.
  rewrite (row_ok _ _ 0) by auto. cbn [bind]. rewrite (row_ok _ _ 0) by lia. reflexivity.
Qed.

(** draws as returned by random.sample *)
Definition random_ok (a : ini_args) (rnd : randomness) : Prop :=
  forall g d, (g < length (i_sizes a))%nat -> In d (fst (rnd g)) ->
    draw_ok false false (Z.to_nat (size_of a g)) (uniq (drops_of a g)) d.

Record gtable (a : ini_args) (g : nat) (t : list (list Z)) : Prop := {
  gt_len : length t = length (i_panels a);
  gt_width : forall r, In r t -> length r = Z.to_nat (size_of a g);
  gt_count : forall i, (i < length (i_panels a))%nat -> Z.of_nat (countb kept (nth i t [])) = plies_of a i g;
  gt_thin : forall i k, (i < length (i_panels a))%nat -> (k < length (i_panels a))%nat -> plies_of a k g <= plies_of a i g ->
    thinner (nth i t []) (nth k t []) }.

Lemma kept_dropped l : (countb kept l + countb (fun x => negb (kept x)) l = length l)%nat.
Proof.
  induction l as [|x l IH]; [reflexivity|]. rewrite !countb_cons. cbn [length]. destruct (kept x); cbn [negb]; lia.
Qed.

Lemma thinner_nth x y n : length x = n -> length y = n ->
  (forall j, (j < n)%nat -> nth j x 0 = -1 -> nth j y 0 = -1) -> thinner x y.
Proof.
  revert y n. induction x as [|u x IH]; intros [|v y] n Hx Hy H; cbn in *; try lia; constructor.
  - apply (H 0%nat); lia.
  - apply (IH y (length x)); auto; try lia. intros j Hj. apply (H (S j)); lia.
Qed.

Lemma drops_nth a g i : (i < length (i_panels a))%nat -> nth i (drops_of a g) 0 = size_of a g - plies_of a i g.
Proof.
  intros Hi. unfold drops_of, plies_of. rewrite (nth_indep _ 0 (size_of a g - nth g [] 0)) by (rewrite map_length; auto).
  exact (map_nth (fun p => size_of a g - nth g p 0) (i_panels a) [] i).
Qed.

Lemma fits_nth a i g : fits a -> (i < length (i_panels a))%nat -> (g < length (i_sizes a))%nat -> 0 <= plies_of a i g <= size_of a g.
Proof.
  intros F Hi Hg. specialize (F (nth i (i_panels a) []) (nth_In _ _ Hi)).
  exact (Forall2_nth _ _ _ 0 0 F g Hg).
Qed.

Lemma layout_gtable a g t : fits a -> (g < length (i_sizes a))%nat ->
  group_layout false false (Z.to_nat (size_of a g)) (drops_of a g) t -> gtable a g t.
Proof.
  intros F Hg [P W D N _ _ _]. assert (L : length (drops_of a g) = length (i_panels a)) by apply map_length.
  split.
  - lia.
  - exact W.
  - intros i Hi. pose proof (kept_dropped (nth i t [])) as K. rewrite (W (nth i t [])) in K by (apply nth_In; lia).
    specialize (D i ltac:(lia)). rewrite <- dropped_count, drops_nth in D by auto.
    pose proof (fits_nth a i g F Hi Hg). lia.
  - intros i k Hi Hk Hle. apply (thinner_nth _ _ (Z.to_nat (size_of a g))); try (apply W, nth_In; lia).
    intros j Hj. apply N; auto; try lia. rewrite !drops_nth by auto. lia.
Qed.

Lemma group_call_ok a b f ls rnd g t : fits a -> random_ok a rnd -> i_panels a <> [] -> (g < length (i_sizes a))%nat ->
  group_call a b f ls None rnd g = Ok t -> gtable a g t.
Proof.
  intros F R N Hg H. unfold group_call in H. rewrite calc_ply_drops_ok in H by auto. cbn [bind] in H.
  rewrite (row_ok _ _ 0) in H by auto. cbn [bind] in H.
  match type of H with bind (randomly_pdl_guide ?args _ _ _) _ = _ => set (ar := args) in * end.
  destruct (randomly_pdl_guide ar 1 (fst (rnd g)) (snd (rnd g))) as [r|] eqn:E; cbn [bind] in H; [|discriminate].
  assert (A : forall pdl, In pdl r -> group_layout (a_top ar) (a_bottom ar) (a_n_max ar) (a_drops ar) pdl).
  { destruct (C27_layouts_partial ar 1 (fst (rnd g)) (snd (rnd g)) r) as [A _]; [reflexivity| | | |exact E|exact A].
  - cbn [ar a_drops]. unfold drops_of. destruct (i_panels a); [congruence|discriminate].
  - cbn [ar a_drops a_top a_bottom a_n_max]. intros u Hu. unfold drops_of in Hu. apply in_map_iff in Hu.
    destruct Hu as [p [<- Hp]]. specialize (F p Hp). pose proof (Forall2_nth _ _ _ 0 0 F g Hg) as B. cbv beta in B.
    unfold droppable, size_of in *. lia.
  - intros d Hd. exact (R g d Hg Hd). }
    assert (In t r) by (unfold row in H; destruct r as [|x r]; cbn in H; [discriminate|]; injection H as ->; left; reflexivity).
    exact (layout_gtable a g t F Hg (A t H0)).
Qed.

Lemma sym_groups_ok a rnd : fits a -> random_ok a rnd -> i_panels a <> [] -> i_has_middle a = false ->
  forall k step prev ts, (step + k = length (i_sizes a))%nat -> sym_groups a rnd prev step k = Ok ts ->
  Forall2 (gtable a) (seq step k) ts.
Proof.
  intros F R N M. induction k as [|k IH]; intros step prev ts Hs H; cbn [sym_groups] in H.
  - injection H as <-. constructor.
  - rewrite M, Bool.andb_false_r in H.
    destruct (group_call a prev None (Nat.eqb k 0) None rnd step) as [t|] eqn:E; cbn [bind] in H; [|discriminate].
    destruct (sym_groups a rnd (Some t) (S step) k) as [r|] eqn:Er; cbn [bind] in H; [|discriminate].
    injection H as <-. cbn [seq]. constructor.
    + eapply group_call_ok; eauto. lia.
    + eapply IH; eauto. lia.
Qed.

Definition even_place (f : nat -> list (list Z)) (b : bool) (g : nat) : option (list (list Z)) :=
  if Bool.eqb (Nat.even g) b then Some (f g) else None.

Lemma asym_groups_ok a rnd : fits a -> random_ok a rnd -> i_panels a <> [] ->
  forall k step before after r, (step + k = length (i_sizes a))%nat -> asym_groups a rnd before after step k = Ok r ->
  exists f, (forall g, In g (seq step k) -> gtable a g (f g)) /\
    fst r = before ++ map (even_place f true) (seq step k) /\ snd r = after ++ map (even_place f false) (seq step k).
Proof.
  intros F R N. induction k as [|k IH]; intros step before after r Hs H; cbn [asym_groups] in H.
  - injection H as <-. exists (fun _ => []). cbn. rewrite !app_nil_r. split; [intros g []|auto].
  - assert (G : exists t b' f' , asym_groups a rnd (before ++ [if Nat.even step then Some t else None]) (after ++ [if Nat.even step then None else Some t]) (S step) k = Ok r
              /\ group_call a b' f' false None rnd step = Ok t).
    { destruct (Nat.even step).
      - destruct (row before step) as [p|]; cbn [bind] in H; [|discriminate].
        destruct (group_call a p None false None rnd step) as [t|] eqn:E; cbn [bind] in H; [|discriminate].
        exists t, p, None; auto.
      - destruct (row after step) as [p|]; cbn [bind] in H; [|discriminate].
        destruct (group_call a None p false None rnd step) as [t|] eqn:E; cbn [bind] in H; [|discriminate].
        exists t, None, p; auto. }
    clear H. destruct G as [t [b' [f' [H E]]]].
    destruct (IH (S step) _ _ r ltac:(lia) H) as [f [A [B C]]].
    exists (fun g => if Nat.eqb g step then t else f g). split; [|split].
    + intros g Hg. cbn [seq] in Hg. destruct (Nat.eqb_spec g step) as [->|Ne].
      * eapply group_call_ok; eauto. lia.
      * destruct Hg; [congruence|]. auto.
    + rewrite B. cbn [seq map]. unfold even_place at 2. rewrite Nat.eqb_refl, <- app_assoc. f_equal. cbn [app]. f_equal.
      * destruct (Nat.even step); auto.
      * apply map_ext_in. intros g Hg. apply in_seq in Hg. unfold even_place. destruct (Nat.eqb_spec g step); [lia|auto].
    + rewrite C. cbn [seq map]. unfold even_place at 2. rewrite Nat.eqb_refl, <- app_assoc. f_equal. cbn [app]. f_equal.
      * destruct (Nat.even step); auto.
      * apply map_ext_in. intros g Hg. apply in_seq in Hg. unfold even_place. destruct (Nat.eqb_spec g step); [lia|auto].
Qed.

(* ------------------------------------------------------------------ *)
(** * lines of the panels *)

Section Lines.
Context (a : ini_args) (F : fits a).

Lemma gtables_ok gs ts : Forall2 (gtable a) gs ts -> tables_ok (length (i_panels a)) ts.
Proof.
  induction 1 as [|g t gs ts G _ IH]; [intros t []|]. apply tables_ok_cons. split; auto.
  split; [rewrite (gt_len _ _ _ G); auto|]. exists (Z.to_nat (size_of a g)). exact (gt_width _ _ _ G).
Qed.

Lemma line_length gs ts i : (i < length (i_panels a))%nat -> Forall2 (gtable a) gs ts ->
  length (panel_line ts i) = sumN (map (fun g => Z.to_nat (size_of a g)) gs).
Proof.
  intros Hi. induction 1 as [|g t gs ts G _ IH]; [reflexivity|].
  rewrite panel_line_cons, app_length, IH. cbn [map]. unfold sumN at 2. cbn [fold_right]. fold (sumN (map (fun g => Z.to_nat (size_of a g)) gs)).
  rewrite (gt_width _ _ _ G) by (apply nth_In; rewrite (gt_len _ _ _ G); auto). reflexivity.
Qed.

Lemma line_count gs ts i : (i < length (i_panels a))%nat -> Forall2 (gtable a) gs ts ->
  Z.of_nat (countb kept (panel_line ts i)) = sumZ (map (plies_of a i) gs).
Proof.
  intros Hi. induction 1 as [|g t gs ts G _ IH]; [reflexivity|].
  rewrite panel_line_cons, countb_app, Nat2Z.inj_add, IH. cbn [map].
  rewrite (gt_count _ _ _ G) by auto. reflexivity.
Qed.

Lemma thinner_app x y u v : thinner x y -> thinner u v -> thinner (x ++ u) (y ++ v).
Proof. unfold thinner. apply Forall2_app. Qed.

Lemma line_thin gs ts i k : (i < length (i_panels a))%nat -> (k < length (i_panels a))%nat ->
  (forall g, In g gs -> plies_of a k g <= plies_of a i g) -> Forall2 (gtable a) gs ts ->
  thinner (panel_line ts i) (panel_line ts k).
Proof.
  intros Hi Hk H. induction 1 as [|g t gs ts G _ IH]; [constructor|].
  rewrite !panel_line_cons. apply thinner_app.
  - apply (gt_thin _ _ _ G); auto. apply H; left; auto.
  - apply IH. intros; apply H; right; auto.
Qed.
End Lines.

Lemma thinner_renumber : forall x y k m, 0 <= k -> 0 <= m -> thinner x y -> thinner (renumber k x) (renumber m y).
Proof.
  intros x y k m Hk Hm H. revert k m Hk Hm. induction H as [|u v x y P _ IH]; intros k m Hk Hm; cbn [renumber]; [constructor|].
  unfold kept. destruct (Z.eqb_spec u (-1)) as [->|Nu]; cbn [negb].
  - rewrite (P eq_refl). cbn [Z.eqb negb Pos.eqb]. constructor; auto. apply IH; auto.
  - destruct (Z.eqb_spec v (-1)) as [->|Nv]; cbn [negb]; constructor; try lia; apply IH; lia.
Qed.

Lemma thinner_rev x y : thinner x y -> thinner (rev x) (rev y).
Proof. induction 1; cbn [rev]; [constructor|]. apply thinner_app; auto. repeat constructor; auto. Qed.

Lemma thinner_of_nth x y j : thinner x y -> nth j x 0 = -1 -> nth j y 0 = -1.
Proof.
  intros H; revert j. induction H as [|u v x y P _ IH]; intros [|j]; cbn [nth]; auto.
Qed.

Lemma sum_seq (l : list Z) : sumZ (map (fun g => nth g l 0) (seq 0 (length l))) = sumZ l.
Proof.
  f_equal. apply nth_ext with (d := 0) (d' := 0); [rewrite map_length, seq_length; auto|].
  intros n Hn. rewrite map_length, seq_length in Hn.
  rewrite (nth_indep _ 0 (nth 0 l 0)) by (rewrite map_length, seq_length; auto).
  rewrite (map_nth (fun g => nth g l 0)), seq_nth by auto. reflexivity.
Qed.

Lemma sumN_Z (f : nat -> Z) gs : (forall g, In g gs -> 0 <= f g) ->
  Z.of_nat (sumN (map (fun g => Z.to_nat (f g)) gs)) = sumZ (map f gs).
Proof.
  induction gs as [|g gs IH]; intros H; [reflexivity|].
  assert (E : sumN (map (fun g => Z.to_nat (f g)) (g :: gs)) = (Z.to_nat (f g) + sumN (map (fun g => Z.to_nat (f g)) gs))%nat) by reflexivity.
  rewrite E, Nat2Z.inj_add, IH by (intros; apply H; right; auto).
  rewrite Z2Nat.id by (apply H; left; auto). reflexivity.
Qed.

(** the order of the groups in an asymmetric laminate *)
Definition group_order (n : nat) : list nat := filter Nat.even (seq 0 n) ++ rev (filter Nat.odd (seq 0 n)).

Lemma group_order_perm n : Permutation (group_order n) (seq 0 n).
Proof.
  unfold group_order. etransitivity; [apply Permutation_app_head; symmetry; apply Permutation_rev|].
  induction (seq 0 n) as [|x l IH]; [constructor|]. cbn [filter]. rewrite <- Nat.negb_even. destruct (Nat.even x); cbn [negb app].
  - constructor; auto.
  - etransitivity; [symmetry; apply Permutation_middle|]. constructor; auto.
Qed.

Lemma sumZ_perm l m : Permutation l m -> sumZ l = sumZ m.
Proof. induction 1; auto; unfold sumZ in *; cbn [fold_right] in *; lia. Qed.

Lemma at_parity_places f b : forall k step,
  at_parity b step (map (even_place f b) (seq step k)) = map f (filter (fun g => Bool.eqb (Nat.even g) b) (seq step k)).
Proof.
  induction k as [|k IH]; intros step; cbn [seq map filter]; [reflexivity|]. rewrite at_parity_cons, IH. unfold even_place at 1.
  destruct (Bool.eqb (Nat.even step) b); reflexivity.
Qed.

Lemma Forall2_map_f a f gs : (forall g, In g gs -> gtable a g (f g)) -> Forall2 (gtable a) gs (map f gs).
Proof. induction gs; intros H; constructor; [apply H; left; auto|]. apply IHgs. intros; apply H; right; auto. Qed.

Lemma places_false : forall l, filter (fun g => Bool.eqb (Nat.even g) false) l = filter Nat.odd l.
Proof. intros l. apply filter_ext. intros g. rewrite <- Nat.negb_even. destruct (Nat.even g); auto. Qed.
Lemma places_true : forall l, filter (fun g => Bool.eqb (Nat.even g) true) l = filter Nat.even l.
Proof. intros l. apply filter_ext. intros g. destruct (Nat.even g); auto. Qed.
