(* Properties_format.v - property theorems C23-C25 (stacking sequence tables). *)
From Verif Require Import Base Uniq Divers DiversProofs Spacing SpacingProofs Strip StripProofs StripGraph StripWeights Format FormatProofs.
Local Open Scope Z_scope.

Definition demo_pdl : list (list Z) :=
  [[0; -1; 2; -1; 4; 5]; [0; 1; 2; -1; 4; 5]; [0; 1; 2; 3; 4; 5]].
Definition demo_guide : list Z := [45; 0; 90; -45; 0; 90].

(* ------------------------------------------------------------------ *)
(** ** C23 *)

(** the stack read back for a panel is the sequence of guide plies its layout line
    keeps; its ply count is the number of kept plies; no angle is invented; a line
    without drops gives the guide *)
Theorem C23_table_round_trip_partial : forall n guide pdl,
  rect n pdl -> pdl <> [] -> length guide = n -> ~ In (-1) guide ->
  exists sst, convert_ss_guide_to_sst guide pdl = Ok sst /\
    length (convert_sst_to_ss sst) = length pdl /\
    forall i p, nth_error pdl i = Some p ->
      exists s, nth_error (convert_sst_to_ss sst) i = Some s /\
        s = selected guide p /\
        length s = countb (fun x => negb (x =? -1)) p /\
        subseq s guide /\
        (forall a, In a s -> In a guide) /\
        (~ In (-1) p -> s = guide).
Proof.
  intros n guide pdl R Hne L N. exists (map (masked guide) pdl).
  split; [apply (guide_to_sst_masked n); auto|].
  split; [unfold convert_sst_to_ss; rewrite !map_length; auto|].
  intros i p E. assert (Lp : length p = n) by (apply R; eapply nth_error_In; eauto).
  exists (selected guide p); unfold convert_sst_to_ss; rewrite !nth_error_map, E; cbn [option_map].
  rewrite masked_filter by (auto; lia).
  split; auto; split; auto; split; [apply selected_length; lia|]. split; [|split].
  - apply selected_subseq.
  - intros a; apply selected_in.
  - intros Hf; apply selected_full; auto; lia.
Qed.
Print Assumptions C23_table_round_trip_partial.

(** the table itself, entry by entry, also for a guide shorter than the table *)
Theorem C23_table_entries : forall n guide pdl,
  rect n pdl -> pdl <> [] -> (length guide <= n)%nat ->
  exists sst, convert_ss_guide_to_sst guide pdl = Ok sst /\ length sst = length pdl /\ rect n sst /\
    forall i j, (i < length pdl)%nat ->
      nth j (nth i sst []) (-1) =
      if (Nat.ltb j (length guide) && negb (nth j (nth i pdl []) (-1) =? -1))%bool
      then nth j guide (-1) else -1.
Proof. exact guide_to_sst_entries. Qed.
Print Assumptions C23_table_entries.

Theorem C23_guide_too_long_raises : forall n guide pdl,
  rect n pdl -> pdl <> [] -> (n < length guide)%nat ->
  convert_ss_guide_to_sst guide pdl = Err IndexError.
Proof. exact guide_too_long. Qed.
Print Assumptions C23_guide_too_long_raises.

(** with nested layout lines the thinner stack is obtained from the thicker one by
    only removing plies *)
Theorem C23_nested_layouts_blend : forall guide thin thick,
  length guide = length thick -> nested thin thick ->
  subseq (selected guide thin) (selected guide thick).
Proof. exact selected_nested. Qed.
Print Assumptions C23_nested_layouts_blend.

(** reading the stacks of a blended table and building the table again gives it back *)
Theorem C23_stacks_rebuild_the_table : forall n pdl sst,
  rect n pdl -> pdl <> [] -> blended_over pdl sst -> ~ In (-1) (last pdl []) ->
  convert_ss_to_sst (convert_sst_to_ss sst) pdl = Ok sst.
Proof. exact sst_ss_sst. Qed.
Print Assumptions C23_stacks_rebuild_the_table.

Example C23_example :
  rect 6 demo_pdl /\ nested [0; -1; 2; -1; 4; 5] [0; 1; 2; -1; 4; 5] /\
  convert_ss_guide_to_sst demo_guide demo_pdl =
    Ok [[45; -1; 90; -1; 0; 90]; [45; 0; 90; -1; 0; 90]; demo_guide] /\
  convert_sst_to_ss [[45; -1; 90; -1; 0; 90]; [45; 0; 90; -1; 0; 90]; demo_guide] =
    [[45; 90; 0; 90]; [45; 0; 90; 0; 90]; demo_guide] /\
  blended_over demo_pdl [[45; -1; 90; -1; 0; 90]; [45; 0; 90; -1; 0; 90]; demo_guide].
Proof.
  assert (R : rect 6 demo_pdl) by (intros r Hr; cbn in Hr; intuition; subst; reflexivity).
  split; auto; split.
  - split; [reflexivity|]. intros j H; do 6 (destruct j as [|j]; [cbn in *; lia|]). cbn in *; destruct j; auto.
  - split; [reflexivity|]; split; [reflexivity|].
    change [[45; -1; 90; -1; 0; 90]; [45; 0; 90; -1; 0; 90]; demo_guide]
      with (map (masked demo_guide) demo_pdl).
    apply (guide_to_sst_blended 6); auto; [discriminate|]. cbn; intuition lia.
Qed.

(** the marker of a dropped ply is also an admissible fibre angle: a guide ply at -1
    degree disappears from every stack *)
Theorem C23_angle_minus_one_refuted :
  ~ (forall n guide pdl sst, rect n pdl -> pdl <> [] -> length guide = n ->
       convert_ss_guide_to_sst guide pdl = Ok sst ->
       forall i p s, nth_error pdl i = Some p -> nth_error (convert_sst_to_ss sst) i = Some s ->
         length s = countb (fun x => negb (x =? -1)) p).
Proof.
  intros H.
  specialize (H 2%nat [45; -1] [[0; 1]] [[45; -1]]).
  assert (R : rect 2 [[0; 1]]) by (intros r [<-|[]]; reflexivity).
  specialize (H R ltac:(discriminate) eq_refl eq_refl 0%nat [0; 1] [45] eq_refl eq_refl).
  vm_compute in H; discriminate.
Qed.
Print Assumptions C23_angle_minus_one_refuted.

(* ------------------------------------------------------------------ *)
(** ** C24 *)
Theorem C24_update_reference_panel : forall n pdl ss_before g ss_ref ref,
  rect n pdl -> pdl <> [] ->
  get ss_before (-1) = Ok g -> length g = n -> ~ In (-1) g ->
  (ref < length pdl)%nat ->
  length ss_ref = countb (fun x => negb (x =? -1)) (nth ref pdl []) -> ~ In (-1) ss_ref ->
  exists sst, convert_ss_ref_to_reduced_sst ss_ref ref pdl ss_before = Ok sst /\
    length sst = length pdl /\ rect n sst /\
    (* entry by entry: only plies of the reference panel change, in every panel sharing them *)
    (forall i j, (i < length pdl)%nat -> (j < n)%nat -> nth j (nth i sst []) (-1) =
       if negb (nth j (nth i pdl []) (-1) =? -1) then
         if negb (nth j (nth ref pdl []) (-1) =? -1)
         then nth (countb (fun x => negb (x =? -1)) (firstn j (nth ref pdl []))) ss_ref (-1)
         else nth j g (-1)
       else -1) /\
    (* the reference panel reads back as the new stack *)
    nth_error (convert_sst_to_ss sst) ref = Some ss_ref /\
    blended_over pdl sst.
Proof.
  intros n pdl ss_before g ss_ref ref R Hne Hg Lg Ng Hr Lr Nr.
  destruct (ref_to_sst_spec n pdl ss_before g ss_ref ref R Hne Hg Lg Ng Hr Lr Nr)
    as [sst [E [L [Rs [H [F B]]]]]].
  exists sst; split; auto; split; auto; split; auto; split; auto; split; auto.
  unfold convert_sst_to_ss; rewrite nth_error_map.
  rewrite (nth_error_nth' sst []) by lia; cbn; f_equal; exact F.
Qed.
Print Assumptions C24_update_reference_panel.

(** a blended table stays a family of stacks obtained by only removing plies *)
Theorem C24_blended_tables_blend : forall pdl sst i1 i2, blended_over pdl sst ->
  (i1 < length pdl)%nat -> (i2 < length pdl)%nat -> nested (nth i1 pdl []) (nth i2 pdl []) ->
  exists s1 s2, nth_error (convert_sst_to_ss sst) i1 = Some s1 /\
    nth_error (convert_sst_to_ss sst) i2 = Some s2 /\ subseq s1 s2.
Proof.
  intros pdl sst i1 i2 B H1 H2 N.
  exists (filter kept (nth i1 sst [])), (filter kept (nth i2 sst [])).
  assert (L : length sst = length pdl) by apply B.
  unfold convert_sst_to_ss; rewrite !nth_error_map, !(nth_error_nth' sst []) by lia.
  split; auto; split; auto; eapply blended_subseq; eauto.
Qed.
Print Assumptions C24_blended_tables_blend.

Example C24_example :
  get [[45; 90; 0; 90]; [45; 0; 90; 0; 90]; demo_guide] (-1) = Ok demo_guide /\
  convert_ss_ref_to_reduced_sst [1; 2; 3; 4; 5] 1 demo_pdl [[45; 90; 0; 90]; [45; 0; 90; 0; 90]; demo_guide] =
    Ok [[1; -1; 3; -1; 4; 5]; [1; 2; 3; -1; 4; 5]; [1; 2; 3; -45; 4; 5]].
Proof. vm_compute; auto. Qed.

(* ------------------------------------------------------------------ *)
(** ** C25 *)

(** distinct positions of the reference panel, in any order: entry by entry the table
    position of that ply *)
Theorem C25_reference_to_table : forall pos pdl,
  NoDup pos -> (forall k, In k pos -> 1 <= k <= Z.of_nat (countb (fun x => negb (x =? -1)) pdl)) ->
  exists r, pos_in_ss_ref_to_pos_in_sst pos pdl = Ok r /\ Forall2 (ply_at pdl) r pos.
Proof. exact pos_ref_spec. Qed.
Print Assumptions C25_reference_to_table.

(** ordered table positions: exactly those present in the panel, in order *)
Theorem C25_table_to_panel : forall pos pdl,
  StronglySorted Z.lt pos -> (forall p, In p pos -> 1 <= p <= zlen pdl) ->
  exists r, pos_in_sst_to_pos_in_panel pos pdl = Ok r /\
    Forall2 (ply_at pdl) (filter (fun p => negb (nth (Z.to_nat (p - 1)) pdl (-1) =? -1)) pos) r.
Proof.
  intros pos pdl Hs Hr; eexists; split; [apply pos_panel_spec; auto|].
  clear Hs; induction pos as [|p t IH]; [constructor|].
  assert (IHt := IH (fun q Hq => Hr q (or_intror Hq))). cbn [filter].
  replace (kept (nth (Z.to_nat (p - 1)) pdl (-1))) with (negb (nth (Z.to_nat (p - 1)) pdl (-1) =? -1)) by reflexivity.
  destruct (Z.eqb_spec (nth (Z.to_nat (p - 1)) pdl (-1)) (-1)); cbn [negb]; auto.
  cbn [map]; constructor; auto. split; [apply Hr; left; auto | split; auto].
Qed.
Print Assumptions C25_table_to_panel.

(** unordered table positions, 1e10 for the absent plies *)
Theorem C25_table_to_panel_2 : forall pos pdl,
  (forall p, In p pos -> 1 <= p <= zlen pdl) ->
  exists r, pos_in_sst_to_pos_in_panel_2 pos pdl = Ok r /\
    Forall2 (fun p k => (nth (Z.to_nat (p - 1)) pdl (-1) = -1 /\ k = absent) \/ ply_at pdl p k) pos r.
Proof. exact pos_panel2_spec. Qed.
Print Assumptions C25_table_to_panel_2.

(** round trips *)
Theorem C25_round_trip_any_order : forall pos pdl,
  NoDup pos -> (forall k, In k pos -> 1 <= k <= Z.of_nat (countb (fun x => negb (x =? -1)) pdl)) ->
  exists r, pos_in_ss_ref_to_pos_in_sst pos pdl = Ok r /\
    pos_in_sst_to_pos_in_panel_2 r pdl = Ok pos.
Proof.
  intros pos pdl Hn Hr; destruct (pos_ref_spec pos pdl Hn Hr) as [r [E _]].
  exists r; split; auto; eapply roundtrip2; eauto.
Qed.
Print Assumptions C25_round_trip_any_order.

Theorem C25_round_trip_ordered : forall pos pdl,
  StronglySorted Z.lt pos ->
  (forall k, In k pos -> 1 <= k <= Z.of_nat (countb (fun x => negb (x =? -1)) pdl)) ->
  exists r, pos_in_ss_ref_to_pos_in_sst pos pdl = Ok r /\ StronglySorted Z.lt r /\
    pos_in_sst_to_pos_in_panel r pdl = Ok pos.
Proof.
  intros pos pdl Hs Hr; destruct (pos_ref_spec pos pdl (ssorted_lt_nodup _ Hs) Hr) as [r [E _]].
  exists r; split; auto; eapply roundtrip1; eauto.
Qed.
Print Assumptions C25_round_trip_ordered.

(** the relation used above is a one-to-one, order preserving correspondence *)
Theorem C25_positions_correspond : forall pdl p q k l,
  ply_at pdl p k -> ply_at pdl q l -> (p < q <-> k < l).
Proof. exact ply_at_mono. Qed.
Print Assumptions C25_positions_correspond.

Example C25_example :
  NoDup [7; 3; 5] /\
  pos_in_ss_ref_to_pos_in_sst [7; 3; 5] [0; 1; -1; 3; -1; 5; -1; -1; 8; 9; 10; 11; 12; 13] = Ok [11; 4; 9] /\
  pos_in_sst_to_pos_in_panel [4; 9; 11] [0; -1; -1; -1; 4; 5; -1; -1; 8; -1; 10; 11; 12; 13] = Ok [4; 5] /\
  pos_in_sst_to_pos_in_panel_2 [11; 4; 9] [0; -1; -1; -1; 4; 5; -1; -1; 8; -1; 10; 11; 12; 13] =
    Ok [5; 10000000000; 4].
Proof. split; [repeat constructor; cbn; intuition lia|]; vm_compute; auto. Qed.

(** a repeated position makes the conversion lose positions *)
Theorem C25_repeated_positions_refuted :
  pos_in_ss_ref_to_pos_in_sst [2; 2; 3] [0; 1; 2; 3] = Ok [2].
Proof. reflexivity. Qed.
Print Assumptions C25_repeated_positions_refuted.
