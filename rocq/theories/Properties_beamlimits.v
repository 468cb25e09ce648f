(* Properties_beamlimits.v - C31: where the guide panel of the beam search breaks the guidelines. *)
From Coq Require Import Lqa.
From Verif Require Import Base Constraints Guidelines SpecGuidelines GuidelinesProofs Format FormatProofs
  PdlTools PdlToolsProofs GroupFilters GroupFiltersProofs Properties_filters
  Pruning PruningProofs Properties_pruning Divide DivideProofs Moments MomentsProofs Properties_moments Search SearchProofs Properties_search Beam BeamProofs Properties_beam.
From Verif Require RepairDisoProofs.
Local Open Scope Z_scope.

(* ------------------------------------------------------------------ *)
(** ** Symmetric laminates with no more plies below the mid-plane than the contiguity limit *)

Definition cons_contig4 : cons :=
  {| sym := true; bal := true; ipo := true; oopo := false; dam_tol := false; dam_tol_rule := 1;
     covering := true; n_covering := 1; rule_10_percent := false; rule_10_Abdalla := false; percent_Abdalla := 0%Q;
     percent_0 := 0%Q; percent_45 := 0%Q; percent_90 := 0%Q; percent_135 := 0%Q; percent_45_135 := 0%Q; percent_tot := 0%Q;
     diso := true; delta_angle := 45; contig := true; n_contig := 4; n_contig_c := Some 4%nat;
     set_of_angles := [-45; 0; 45; 90]; angles_bal := [(45, 2%nat, 0%nat)]; pdl_spacing := false; min_drop := 0 |}.
Definition beam_contig4 : problem :=
  {| p_cons := cons_contig4; p_n := 4; p_middle := false; p_thick := 0; p_pdl := [[0; 0; 0; 0]];
     p_mat := [ex_mat [0; 0; 0; 0] 8]; p_score := fun _ _ => 0%Q;
     p_local := 4; p_local_final := 4; p_global := 4; p_global_final := 1 |}.

(** C31_guide_respects_guidelines without its condition that the contiguity limit is smaller
    than the number of plies below the mid-plane: eight plies -45 in a row, the limit being 4 *)
Theorem C31_short_contiguity_refuted : ~ (forall pb cos_sin n_max ns t,
  let c := p_cons pb in let g := p_thick pb in
  sym c = true -> scores_bounded pb -> well_posed pb cos_sin n_max ns -> (1 <= n_max)%nat -> (1 <= p_global_final pb)%nat ->
  (g < length (p_pdl pb))%nat -> (forall x, In x (nth g (p_pdl pb) []) -> 0 <= x) -> nth g ns 0%nat = n_max -> p_middle pb = Nat.odd n_max ->
  set_of_angles c <> [] -> Forall angle_ok (set_of_angles c) -> 0 <= delta_angle c ->
  (3 <= p_n pb)%nat -> (contig c = true -> (2 <= n_contig c <= 6)%nat) ->
  beam pb (ply_order true n_max) = Ok t ->
  forall k, (k < length (t_ss t))%nat ->
    exists s, final_stack true n_max (nth g (nth k (t_ss t) []) ([], [])) = Ok s /\ guidelines c s).
Proof.
  intros H.
  assert (V : match beam beam_contig4 (ply_order true 8) with
    | Ok t => t_ss t = [[([-45; -45; -45; -45], [])]] | Err _ => False end) by (vm_compute; reflexivity).
  destruct (beam beam_contig4 (ply_order true 8)) as [t|e] eqn:E; [|contradiction].
  specialize (H beam_contig4 (fun _ _ => 1%Q) 8%nat [8%nat] t). cbv zeta in H.
  assert (Hw : well_posed beam_contig4 (fun _ _ => 1%Q) 8 [8%nat]).
  { split; [reflexivity|]. split; [reflexivity|]. split; [reflexivity|]. intros i Hi; cbn [length beam_contig4 p_pdl] in Hi.
    destruct i as [|i]; [|lia]; cbv zeta; cbn [nth beam_contig4 p_pdl p_mat].
    split; [lia|split; [reflexivity|split; [intros x Hx; cbn in Hx; lia|split; [reflexivity|unfold ex_mat; reflexivity]]]]. }
  assert (Hb : scores_bounded beam_contig4) by (intros l x; cbn; lra).
  assert (Ha : Forall angle_ok (set_of_angles cons_contig4)).
  { cbn [cons_contig4 set_of_angles]. unfold angle_ok. repeat (apply Forall_cons; [lia|]); apply Forall_nil. }
  destruct (H eq_refl Hb Hw ltac:(lia) ltac:(cbn; lia) ltac:(cbn; lia) ltac:(intros x Hx; cbn in Hx; lia) eq_refl eq_refl
    ltac:(discriminate) Ha ltac:(cbn; lia) ltac:(cbn; lia) ltac:(intros _; cbn; lia) E 0%nat ltac:(rewrite V; cbn; lia)) as [s [Es G]].
  rewrite V in Es. vm_compute in Es. injection Es as <-.
  destruct G as (_ & _ & _ & _ & _ & G). specialize (G eq_refl). apply G.
  exists (-45), [], [-45; -45; -45]. reflexivity.
Qed.
Print Assumptions C31_short_contiguity_refuted.

(* ------------------------------------------------------------------ *)
(** ** Asymmetric laminates *)

Definition cons_asym (dt : bool) (rule : nat) : cons :=
  {| sym := false; bal := true; ipo := true; oopo := false; dam_tol := dt; dam_tol_rule := rule;
     covering := true; n_covering := 1; rule_10_percent := false; rule_10_Abdalla := false; percent_Abdalla := 0%Q;
     percent_0 := 0%Q; percent_45 := 0%Q; percent_90 := 0%Q; percent_135 := 0%Q; percent_45_135 := 0%Q; percent_tot := 0%Q;
     diso := true; delta_angle := 45; contig := false; n_contig := 1; n_contig_c := Some 1%nat;
     set_of_angles := [-45; 0; 45; 90]; angles_bal := [(45, 2%nat, 0%nat)]; pdl_spacing := false; min_drop := 0 |}.
Definition beam_asym (dt : bool) (rule n : nat) (score : nat -> lampam -> Q) (table : Z -> nat -> Q) : problem :=
  {| p_cons := cons_asym dt rule; p_n := n; p_middle := false; p_thick := 0; p_pdl := [repeat 0 n];
     p_mat := [match lampam_matrix (repeat 0 n) (delta_lampams false table n) with Ok m => m | Err _ => [] end];
     p_score := fun l x => score l (nth 0 x lampam_zero);
     p_local := 4; p_local_final := 4; p_global := 4; p_global_final := 3 |}.

(** the guide panel has one more ply *)
Lemma guide_snoc pb ls h l a : sym (p_cons pb) = false -> length (p_pdl pb) = length (p_mat pb) ->
  (p_thick pb < length (p_pdl pb))%nat -> 0 <= nth l (nth (p_thick pb) (p_pdl pb) []) (-1) -> length h = length ls ->
  guide pb (ls ++ [l]) (h ++ [a]) =
    if Nat.even l then (fst (guide pb ls h) ++ [a], snd (guide pb ls h)) else (fst (guide pb ls h), a :: snd (guide pb ls h)).
Proof.
  intros Hs HL Ht Hk Lh. unfold guide, ss_of.
  assert (Lc : length (List.combine (p_pdl pb) (p_mat pb)) = length (p_pdl pb)) by (rewrite combine_length; lia).
  assert (At : forall f : list Z * list (Z -> lampam) -> list Z * list Z,
    nth (p_thick pb) (map f (List.combine (p_pdl pb) (p_mat pb))) ([], []) = f (nth (p_thick pb) (p_pdl pb) [], nth (p_thick pb) (p_mat pb) [])).
  { intros f. rewrite (nth_indep _ ([], []) (f ([], []))) by (rewrite map_length, Lc; exact Ht). rewrite (map_nth f), combine_nth by exact HL. reflexivity. }
  rewrite !At. unfold panel_node; cbn [fst snd]. rewrite search_snoc by exact Lh. unfold branch. rewrite Hs.
  destruct (Z.leb_spec 0 (nth l (nth (p_thick pb) (p_pdl pb) []) (-1))); [|lia].
  destruct (Nat.even l); reflexivity.
Qed.

Lemma guide_nil pb : (p_thick pb < length (p_pdl pb))%nat -> length (p_pdl pb) = length (p_mat pb) -> guide pb [] [] = ([], []).
Proof.
  intros Ht HL. unfold guide, ss_of. generalize (p_thick pb) as k. induction (List.combine (p_pdl pb) (p_mat pb)) as [|rm l IH]; intros [|k]; try reflexivity.
  cbn [map nth]. apply IH.
Qed.

Lemma reach_before pb ls l rest : forall h, reach pb (ls ++ l :: rest) h ->
  exists h0 a angs, firstn (length ls) h = h0 /\ nth_error h (length ls) = Some a /\ reach pb ls h0 /\
    pruning (p_cons pb) (p_n pb) l (p_middle pb) (fst (guide pb ls h0)) (snd (guide pb ls h0)) (set_of_angles (p_cons pb)) = Ok (Some angs) /\ In a angs /\
    ind_angle (set_of_angles (p_cons pb)) a <> None.
Proof.
  induction rest as [|x rest IH] using rev_ind; intros h R.
  - inversion R as [E|ls' h0 l' a angs R0 P Ha Hi E1 E2]; [destruct ls; discriminate|]. apply app_inj_tail in E1. destruct E1 as [-> ->].
    pose proof (reach_length _ _ _ R0) as L0. exists h0, a, angs. rewrite <- L0.
    rewrite firstn_app, firstn_all, Nat.sub_diag, nth_error_app2, Nat.sub_diag by lia. cbn [firstn nth_error]. rewrite app_nil_r. repeat (split; [reflexivity || assumption|]). assumption.
  - change (l :: rest ++ [x]) with ((l :: rest) ++ [x]) in R. rewrite app_assoc in R.
    inversion R as [E|ls' h0 l' a angs R0 P Ha Hi E1 E2]; [destruct ls; discriminate|]. apply app_inj_tail in E1. destruct E1 as [-> ->].
    pose proof (reach_length _ _ _ R0) as L0. rewrite app_length in L0. cbn [length] in L0.
    destruct (IH _ R0) as [h1 [b [ang [F [Nb G]]]]]. exists h1, b, ang. split; [|split; [|exact G]].
    + rewrite firstn_app. replace (length ls - length h0)%nat with 0%nat by lia. cbn [firstn]. rewrite app_nil_r. exact F.
    + rewrite nth_error_app1 by lia. exact Nb.
Qed.

(** the order of the search: the outermost ply of the bottom, the outermost of the top, ... *)
Lemma order_asym n : (2 <= n)%nat -> exists rest, ply_order false n = 0%nat :: (n - 1)%nat :: rest.
Proof.
  intros Hn. unfold ply_order.
  assert (Hh : (1 <= n_half n < n)%nat).
  { pose proof (n_half_spec n). lia. }
  destruct n as [|m]; [lia|]. assert (F : firstn (n_half (S m)) (seq 0 (S m)) = 0%nat :: firstn (n_half (S m) - 1) (seq 1 m)).
  { destruct (n_half (S m)); [lia|]. cbn [seq firstn]. rewrite Nat.sub_succ, Nat.sub_0_r. reflexivity. }
  rewrite F. rewrite seq_S. rewrite skipn_app, seq_length.
  replace (n_half (S m) - m)%nat with 0%nat by lia. cbn [skipn]. rewrite rev_app_distr. cbn [rev app interleave].
  rewrite Nat.sub_succ, Nat.sub_0_r. eexists. reflexivity.
Qed.

(** every surviving node has its guide panel in the tables *)
Lemma guide_of pb levels t k : length (p_mat pb) = length (p_pdl pb) -> scores_bounded pb -> levels <> [] ->
  beam pb levels = Ok t -> (k < length (t_ss t))%nat ->
  exists h, reach pb levels h /\ nth (p_thick pb) (nth k (t_ss t) []) ([], []) = guide pb levels h.
Proof.
  intros W2 Hb Np X Hk.
  destruct (beam_ok pb _ t (eq_sym W2) (fun l x => proj1 (Hb l x)) (fun l x => proj2 (Hb l x)) X Np) as [hs [[I1 _] [R _]]].
  rewrite I1, map_length in Hk. exists (nth k hs []). split; [apply R, nth_In; exact Hk|].
  rewrite I1. rewrite (nth_indep _ [] (ss_of pb levels [])) by (rewrite map_length; exact Hk). rewrite map_nth. reflexivity.
Qed.

(** an odd number of plies: the ply of the other surface is compared with the ply "above"
    it, and there is none *)
Theorem C31_asymmetric_odd_raises : forall pb n t, let c := p_cons pb in
  sym c = false -> diso c = true -> dam_tol c = false -> scores_bounded pb -> length (p_mat pb) = length (p_pdl pb) -> (1 <= p_global_final pb)%nat ->
  (3 <= n)%nat -> Nat.odd n = true -> p_n pb = n ->
  (p_thick pb < length (p_pdl pb))%nat -> 0 <= nth 0 (nth (p_thick pb) (p_pdl pb) []) (-1) -> 0 <= delta_angle c ->
  Forall angle_ok (set_of_angles c) ->
  beam pb (ply_order false n) <> Ok t.
Proof.
  intros pb n t c Hs Hd Hdt Hb W2 Hg Hn Odd Pn Ht Hk Hdl Hset X.
  destruct (order_asym n ltac:(lia)) as [rest Or]. rewrite Or in X.
  set (levels := 0%nat :: (n - 1)%nat :: rest) in X. assert (Nl : levels <> []) by discriminate.
  destruct (C31_asymmetric_nodes pb levels t Hs Hb W2 Nl Hg X) as [hs [[L _] [Lt _]]].
  destruct (guide_of pb levels t 0%nat W2 Hb Nl X ltac:(lia)) as [h [R _]].
  change levels with ([0%nat] ++ (n - 1)%nat :: rest) in R.
  destruct (reach_before _ _ _ _ _ R) as [h0 [a [angs [_ [_ [R0 [P _]]]]]]].
  destruct (reach_before pb [] 0%nat [] h0 R0) as [h1 [b [ang1 [F [N1 [R1 [P1 [B1 B2]]]]]]]].
  pose proof (reach_length _ _ _ R0) as L0. destruct h0 as [|b' [|]]; try discriminate L0. cbn in N1. injection N1 as ->.
  change [b] with ([] ++ [b]) in P. change [0%nat] with ([] ++ [0%nat]) in P.
  rewrite guide_snoc in P; auto. rewrite guide_nil in P by auto. cbn [Nat.even fst snd app] in P.
  assert (Ev : Nat.even (n - 1) = true).
  { destruct n; [lia|]. rewrite Nat.sub_succ, Nat.sub_0_r. rewrite Nat.odd_succ in Odd. exact Odd. }
  unfold pruning in P. fold c in P. rewrite Hdt, Hs, Pn in P. cbn [andb negb orb] in P. cbv zeta in P.
  replace (Nat.eqb (S (n - 1)) n) with true in P by (symmetry; apply Nat.eqb_eq; lia).
  unfold prune_diso in P. rewrite Hd, Hs, Ev in P. cbn [andb negb orb] in P.
  rewrite (py_get_last [] b : py_get [b] (-1) = Some b) in P.
  assert (Bs : In b (set_of_angles c)).
  { apply reach_length in R1. destruct h1; [|discriminate]. rewrite guide_nil in P1 by auto. cbn [fst snd] in P1.
    unfold pruning in P1. fold c in P1. rewrite Hdt, Hs, Pn in P1. cbn [andb negb orb] in P1. cbv zeta in P1.
    replace (Nat.eqb 1 n) with false in P1 by (symmetry; apply Nat.eqb_neq; lia).
    unfold prune_diso in P1. rewrite Hd, Hs in P1. cbn [andb negb orb Nat.even py_get] in P1.
    destruct (set_of_angles c) as [|x set'] eqn:Es; cbn in P1; [discriminate|]. rewrite <- Es in *.
    unfold prune_contig in P1. rewrite Hs in P1.
    destruct (contig c); cbn [negb orb Nat.even andb] in P1.
    - match type of P1 with context [filterR ?f ?x] => destruct (filterR f x) as [l|] eqn:Fl end; cbn [bind] in P1; [|discriminate].
      assert (Sb : forall y, In y l -> In y (set_of_angles c)) by (intros y Hy; exact (proj1 (RepairDisoProofs.filterR_in _ _ _ _ Fl Hy))).
      destruct l; cbn in P1; [discriminate|]. injection P1 as <-. auto.
    - cbn in P1. injection P1 as <-. exact B1. }
  assert (Self : is_diso b b (delta_angle c) = true).
  { rewrite Forall_forall in Hset. apply is_diso_spec; auto. exists 0. lia. }
  assert (Bf : In b (filter (fun a => is_diso a b (delta_angle c)) (set_of_angles c))) by (apply filter_In; auto).
  destruct (filter (fun a => is_diso a b (delta_angle c)) (set_of_angles c)) as [|x xs]; [destruct Bf|].
  cbn in P. discriminate P.
Qed.
Print Assumptions C31_asymmetric_odd_raises.

(** the plies of each of the two parts of the stack respect the disorientation rule (damage
    tolerance off); a part is seen from the bottom *)
Theorem C31_asymmetric_parts_partial : forall pb levels t, let c := p_cons pb in let g := p_thick pb in
  sym c = false -> diso c = true -> dam_tol c = false -> scores_bounded pb -> length (p_mat pb) = length (p_pdl pb) ->
  (g < length (p_pdl pb))%nat -> (forall l, In l levels -> 0 <= nth l (nth g (p_pdl pb) []) (-1)) -> levels <> [] ->
  Forall angle_ok (set_of_angles c) ->
  beam pb levels = Ok t ->
  forall k, (k < length (t_ss t))%nat ->
    diso_stack (delta_angle c) (fst (nth g (nth k (t_ss t) []) ([], []))) /\
    diso_stack (delta_angle c) (snd (nth g (nth k (t_ss t) []) ([], []))).
Proof.
  intros pb levels t c g Hs Hd Hdt Hb W2 Ht Hk Nl Hset X k Hkk. subst g.
  destruct (guide_of pb levels t k W2 Hb Nl X Hkk) as [h [R ->]].
  enough (G : Forall angle_ok (fst (guide pb levels h)) /\ Forall angle_ok (snd (guide pb levels h)) /\
    diso_stack (delta_angle c) (fst (guide pb levels h)) /\ diso_stack (delta_angle c) (snd (guide pb levels h))) by tauto.
  clear X Hkk Nl. induction R as [|ls h l a angs R IH P Ha _].
  - rewrite guide_nil by auto. cbn [fst snd]. assert (N : diso_stack (delta_angle c) []) by (intros a b [l1 [l2 E]]; destruct l1; discriminate E).
    auto.
  - destruct IH as (A1 & A2 & D1 & D2); [intros; apply Hk, in_or_app; auto|].
    assert (Sound : In a (set_of_angles c) /\
      match (if Nat.even l then py_get (fst (guide pb ls h)) (-1) else py_get (snd (guide pb ls h)) 0) with
      | Some y => is_diso a y (delta_angle c) = true | None => True end).
    { unfold pruning in P. fold c in P. rewrite Hdt, Hs in P. cbn [andb negb orb] in P. cbv zeta in P.
      unfold prune_diso in P. rewrite Hd, Hs in P. cbn [andb negb orb] in P.
      match type of P with context [bind ?x _] => destruct x as [child|] eqn:E1 end; cbn [bind] in P; [|discriminate].
      destruct child as [|y0 child0] eqn:Ec; [discriminate|]. rewrite <- Ec in *. clear Ec.
      assert (In a child).
      { unfold prune_contig in P. rewrite Hs in P. destruct (contig c).
        - destruct (negb (Nat.eqb (S l) (p_n pb))).
          + destruct (false || Nat.even l)%bool.
            * match type of P with context [filterR ?f ?x] => destruct (filterR f x) as [l'|] eqn:Fl end; cbn [bind andb] in P; [|discriminate].
              destruct l' eqn:El; [discriminate|]. rewrite <- El in *. injection P as <-. exact (proj1 (RepairDisoProofs.filterR_in _ _ _ _ Fl Ha)).
            * cbn [bind andb] in P. destruct child; [discriminate|]. injection P as <-. exact Ha.
          + match type of P with context [filterR ?f ?x] => destruct (filterR f x) as [l'|] eqn:Fl end; cbn [bind andb] in P; [|discriminate].
            destruct l' eqn:El; [discriminate|]. rewrite <- El in *. injection P as <-. exact (proj1 (RepairDisoProofs.filterR_in _ _ _ _ Fl Ha)).
        - cbn [bind andb] in P. injection P as <-. exact Ha. }
      clear P.
      assert (Sub : In a (if Nat.even l then match py_get (fst (guide pb ls h)) (-1) with None => set_of_angles c | Some y => filter (fun a => is_diso a y (delta_angle c)) (set_of_angles c) end
        else match py_get (snd (guide pb ls h)) 0 with None => set_of_angles c | Some y => filter (fun a => is_diso a y (delta_angle c)) (set_of_angles c) end)).
      { destruct (Nat.eqb (S l) (p_n pb)); [exact (proj1 (RepairDisoProofs.filterR_in _ _ _ _ E1 H))|injection E1 as <-; exact H]. }
      destruct (Nat.even l); destruct (py_get _ _); try apply filter_In in Sub; tauto. }
    destruct Sound as [Sa Sd]. assert (Oa : angle_ok a) by (rewrite Forall_forall in Hset; auto).
    rewrite guide_snoc; auto; [|apply Hk, in_or_app; right; left; reflexivity|exact (reach_length _ _ _ R)].
    destruct (guide pb ls h) as [bot top]. cbn [fst snd] in *. destruct (Nat.even l); cbn [fst snd].
    + split; [apply Forall_app; auto|]. split; [exact A2|]. split; [|exact D2].
      intros x y [l1 [l2 E]]. destruct l2 as [|z l2 _] using rev_ind.
      * change (l1 ++ [x; y]) with (l1 ++ [x] ++ [y]) in E. rewrite app_assoc in E. apply app_inj_tail in E. destruct E as [E ->].
        rewrite E, py_get_last in Sd. rewrite Forall_forall in A1. rewrite is_diso_comm in Sd. apply is_diso_spec in Sd; auto. apply A1. rewrite E. apply in_or_app; right; left; reflexivity.
      * change (l1 ++ x :: y :: l2 ++ [z]) with (l1 ++ (x :: y :: l2) ++ [z]) in E. rewrite app_assoc in E. apply app_inj_tail in E.
        apply D1. exists l1, l2. tauto.
    + split; [exact A1|]. split; [constructor; auto|]. split; [exact D1|].
      intros x y [[|z l1] [l2 E]]; cbn [app] in E.
      * assert (x = a) as -> by congruence. assert (E' : top = y :: l2) by congruence. rewrite E', py_get_0 in Sd.
        rewrite Forall_forall in A2. apply is_diso_spec in Sd; auto. apply A2. rewrite E'. left; reflexivity.
      * apply D2. exists l1, l2. congruence.
Qed.
Print Assumptions C31_asymmetric_parts_partial.

(** an even number of plies: rule 1 of damage tolerance holds *)
Theorem C31_asymmetric_damtol_partial : forall pb n t, let c := p_cons pb in let g := p_thick pb in
  sym c = false -> dam_tol c = true -> scores_bounded pb -> length (p_mat pb) = length (p_pdl pb) ->
  (g < length (p_pdl pb))%nat -> (forall l, (l < n)%nat -> 0 <= nth l (nth g (p_pdl pb) []) (-1)) ->
  (2 <= n)%nat -> Nat.even n = true -> p_n pb = n ->
  beam pb (ply_order false n) = Ok t ->
  forall k, (k < length (t_ss t))%nat ->
    damtol1 (fst (nth g (nth k (t_ss t) []) ([], [])) ++ snd (nth g (nth k (t_ss t) []) ([], []))).
Proof.
  intros pb n t c g Hs Hdt Hb W2 Ht Hk Hn Ev Pn X k Hkk. subst g.
  destruct (order_asym n Hn) as [rest Or].
  assert (Lv : forall l, In l (ply_order false n) -> (l < n)%nat).
  { intros l Hl. unfold ply_order in Hl.
    assert (Sub : forall (a b : list nat) x, In x (interleave a b) -> In x a \/ In x b).
    { clear. fix IH 1. intros [|a0 a] b x Hx; [destruct Hx|]. cbn [interleave] in Hx.
      destruct b as [|b0 b]; [destruct Hx as [<-|[]]; left; left; reflexivity|].
      destruct Hx as [<-|[<-|Hx]]; [left; left; reflexivity|right; left; reflexivity|].
      destruct (IH a b x Hx); [left; right; auto|right; right; auto]. }
    apply Sub in Hl. destruct Hl as [Hl|Hl].
    - assert (In l (seq 0 n)) as H by (rewrite <- (firstn_skipn (n_half n) (seq 0 n)); apply in_or_app; auto). apply in_seq in H; lia.
    - apply in_rev in Hl. assert (In l (seq 0 n)) as H by (rewrite <- (firstn_skipn (n_half n) (seq 0 n)); apply in_or_app; auto). apply in_seq in H; lia. }
  rewrite Or in X, Lv. set (levels := 0%nat :: (n - 1)%nat :: rest) in *. assert (Nl : levels <> []) by discriminate.
  destruct (guide_of pb levels t k W2 Hb Nl X Hkk) as [h [R ->]].
  assert (Odd : Nat.even (n - 1) = false).
  { destruct n; [lia|]. rewrite Nat.sub_succ, Nat.sub_0_r. rewrite Nat.even_succ in Ev. rewrite <- Nat.negb_odd, Ev. reflexivity. }
  (* the two outer plies *)
  assert (First : forall l h0 angs a, (l = 0 \/ l = n - 1)%nat ->
    pruning c (p_n pb) l (p_middle pb) (fst (guide pb h0 angs)) (snd (guide pb h0 angs)) (set_of_angles c) = Ok (Some a) -> forall x, In x a -> pm45 x).
  { intros l h0 angs a Hl P x Hx. unfold pruning in P. rewrite Hdt, Hs, Pn in P. cbn [andb negb] in P. cbv zeta in P.
    replace (Nat.eqb l 0 || Nat.eqb (S l) n)%bool with true in P.
    2:{ symmetry. apply orb_true_iff. rewrite !Nat.eqb_eq. lia. }
    unfold none_if_empty in P. destruct (filter is45 (set_of_angles c)) eqn:F; [discriminate|]. injection P as <-. rewrite <- F in Hx.
    apply filter_In in Hx. apply is45_spec. tauto. }
  assert (G : forall ls h, reach pb ls h -> forall rest', levels = ls ++ rest' ->
    (exists m, (1 <= length ls)%nat -> exists a, pm45 a /\ fst (guide pb ls h) = a :: m) /\
    ((2 <= length ls)%nat -> exists z m, pm45 z /\ snd (guide pb ls h) = m ++ [z]) /\
    (length ls < 2 -> snd (guide pb ls h) = [])%nat /\ ((length ls = 0)%nat -> fst (guide pb ls h) = [])).
  { clear h R. intros ls h R. induction R as [|ls h l a angs R IH P Ha _]; intros rest' E.
    - rewrite guide_nil by auto. cbn [fst snd length]. split; [exists []; lia|]. split; [lia|]. auto.
    - rewrite <- app_assoc in E. destruct (IH _ E) as (I1 & I2 & I3 & I4). clear IH.
      assert (Kl : 0 <= nth l (nth (p_thick pb) (p_pdl pb) []) (-1)) by (apply Hk, Lv; rewrite E; apply in_or_app; right; left; reflexivity).
      rewrite guide_snoc; auto; [|exact (reach_length _ _ _ R)]. rewrite app_length. cbn [length].
      unfold levels in E. destruct ls as [|l0 [|l1 ls]]; cbn [app] in E.
      + assert (l = 0%nat) as -> by congruence. cbn [Nat.even fst snd length] in *. rewrite I4, I3 by lia. cbn [app].
        split; [exists []; intros _; exists a; split; [exact (First 0%nat _ _ _ (or_introl eq_refl) P a Ha)|reflexivity]|].
        split; [lia|]. split; [auto|lia].
      + assert (l = (n - 1)%nat) as -> by congruence. rewrite Odd. cbn [fst snd length] in *. rewrite I3 by lia.
        split; [destruct I1 as [m I1]; exists m; intros _; apply I1; lia|].
        split; [intros _; exists a, []; split; [exact (First (n - 1)%nat _ _ _ (or_intror eq_refl) P a Ha)|reflexivity]|]. split; lia.
      + cbn [length] in *. destruct I1 as [m I1]. destruct I1 as [a0 [Pa I1]]; [lia|]. destruct I2 as [z [m' [Pz I2]]]; [lia|].
        destruct (Nat.even l); cbn [fst snd].
        * split; [exists (m ++ [a]); intros _; exists a0; rewrite I1; auto|]. split; [intros _; exists z, m'; auto|]. split; lia.
        * split; [exists m; intros _; exists a0; auto|]. split; [intros _; exists z, (a :: m'); rewrite I2; auto|]. split; lia. }
  destruct (G levels h R [] (eq_sym (app_nil_r _))) as ((m & G1) & G2 & _).
  destruct G1 as [a [Pa G1]]; [cbn; lia|]. destruct G2 as [z [m' [Pz G2]]]; [cbn; lia|]. rewrite G1, G2.
  split; [exists a, (m ++ m' ++ [z]); auto|]. exists (a :: m ++ m'), z. split; [cbn [app]; rewrite app_assoc; reflexivity|exact Pz].
Qed.
Print Assumptions C31_asymmetric_damtol_partial.

(* ------------------------------------------------------------------ *)
(** the plies that the objective function of the examples prefers *)
Definition prefer (a0 : Z) : Z -> nat -> Q := fun a _ => if a =? a0 then 1%Q else 0%Q.
Definition clamp (y : Q) : Q := if (Qle_bool 0 y && Qle_bool y 1)%bool then (1 - y)%Q else 1%Q.
Definition most : nat -> lampam -> Q := fun _ x => clamp (x 0%nat).
Definition beam_odd : problem := beam_asym true 1 5 most (prefer 0).
Definition beam_rule2 : problem := beam_asym true 2 6 most (prefer 0).
(** -45 in the part of the bottom, 45 in the part of the top *)
Definition beam_sides : problem :=
  beam_asym false 1 6 (fun l x => if Nat.even l then clamp (x 0%nat) else clamp (x 1%nat))
    (fun a q => match q with 0%nat => if a =? -45 then 1%Q else 0%Q | _ => if a =? 45 then 1%Q else if a =? 90 then (1 # 2)%Q else 0%Q end).

(** what the asymmetric laminates of the examples have in common *)
Definition asymmetric_case (pb : problem) (n : nat) : Prop :=
  sym (p_cons pb) = false /\ contig (p_cons pb) = false /\ scores_bounded pb /\ length (p_mat pb) = length (p_pdl pb) /\
  (p_thick pb < length (p_pdl pb))%nat /\ (forall l, (l < n)%nat -> 0 <= nth l (nth (p_thick pb) (p_pdl pb) []) (-1)) /\
  (3 <= n)%nat /\ p_n pb = n /\ set_of_angles (p_cons pb) <> [] /\ Forall angle_ok (set_of_angles (p_cons pb)) /\ 0 <= delta_angle (p_cons pb).
Definition stack_of (t : btables) (g k : nat) : list Z :=
  fst (nth g (nth k (t_ss t) []) ([], [])) ++ snd (nth g (nth k (t_ss t) []) ([], [])).

Lemma clamp_bounded y : (-6666 < clamp y)%Q /\ (clamp y < 6666)%Q.
Proof.
  unfold clamp. destruct (Qle_bool 0 y) eqn:A, (Qle_bool y 1) eqn:B; cbn [andb]; try (split; lra).
  apply Qle_bool_iff in A, B. split; lra.
Qed.
Lemma example_case dt rule n score table : (3 <= n)%nat -> (forall l x, (-6666 < score l x)%Q /\ (score l x < 6666)%Q) ->
  asymmetric_case (beam_asym dt rule n score table) n.
Proof.
  intros Hn Hsc. unfold asymmetric_case, beam_asym. cbn [p_cons cons_asym sym contig p_mat p_pdl p_thick p_n set_of_angles delta_angle length nth].
  split; [reflexivity|]. split; [reflexivity|]. split; [intros l x; cbn [p_score]; apply Hsc|]. split; [reflexivity|]. split; [lia|].
  split. { intros l Hl. rewrite (nth_indep _ _ 0) by (rewrite repeat_length; exact Hl). rewrite nth_repeat. lia. }
  split; [exact Hn|]. split; [reflexivity|]. split; [discriminate|]. split; [|lia].
  unfold angle_ok. repeat (apply Forall_cons; [lia|]); apply Forall_nil.
Qed.

(** an odd number of plies: the ply of the surface above need not be at 45 or -45 degrees *)
Theorem C31_asymmetric_odd_damtol_refuted : ~ (forall pb n t,
  asymmetric_case pb n -> dam_tol (p_cons pb) = true -> dam_tol_rule (p_cons pb) = 1%nat ->
  beam pb (ply_order false n) = Ok t ->
  forall k, (k < length (t_ss t))%nat -> damtol1 (stack_of t (p_thick pb) k)).
Proof.
  intros H.
  assert (V : match beam beam_odd (ply_order false 5) with
    | Ok t => nth 0 (t_ss t) [] = [([-45; -45; 0], [0; 0])] /\ length (t_ss t) = 3%nat | Err _ => False end) by (vm_compute; auto).
  destruct (beam beam_odd (ply_order false 5)) as [t|e] eqn:E; [|contradiction]. destruct V as [V1 V2].
  assert (Ca : asymmetric_case beam_odd 5) by (apply example_case; [lia|intros; apply clamp_bounded]).
  specialize (H beam_odd 5%nat t Ca eq_refl eq_refl E 0%nat ltac:(lia)).
  unfold stack_of in H. change (p_thick beam_odd) with 0%nat in H. rewrite V1 in H. cbn [nth fst snd app] in H.
  destruct H as [_ [m [z [Em Pz]]]]. apply (app_inj_tail [-45; -45; 0; 0] m 0 z) in Em. destruct Em as [_ <-].
  destruct Pz as [Pz|Pz]; discriminate Pz.
Qed.
Print Assumptions C31_asymmetric_odd_damtol_refuted.

(** rule 2 of damage tolerance: the second ply is compared with the outermost one of the
    other surface *)
Theorem C31_asymmetric_rule2_refuted : ~ (forall pb n t,
  asymmetric_case pb n -> Nat.even n = true -> dam_tol (p_cons pb) = true -> dam_tol_rule (p_cons pb) = 2%nat ->
  beam pb (ply_order false n) = Ok t ->
  forall k, (k < length (t_ss t))%nat -> damtol2 (stack_of t (p_thick pb) k)).
Proof.
  intros H.
  assert (V : match beam beam_rule2 (ply_order false 6) with
    | Ok t => nth 1 (t_ss t) [] = [([-45; -45; 0], [0; 45; 45])] /\ length (t_ss t) = 3%nat | Err _ => False end) by (vm_compute; auto).
  destruct (beam beam_rule2 (ply_order false 6)) as [t|e] eqn:E; [|contradiction]. destruct V as [V1 V2].
  assert (Ca : asymmetric_case beam_rule2 6) by (apply example_case; [lia|intros; apply clamp_bounded]).
  specialize (H beam_rule2 6%nat t Ca eq_refl eq_refl eq_refl E 1%nat ltac:(lia)).
  unfold stack_of in H. change (p_thick beam_rule2) with 0%nat in H. rewrite V1 in H. cbn [nth fst snd app] in H.
  destruct H as [[a [m [Em _]]] _]. injection Em as <- Em _. discriminate Em.
Qed.
Print Assumptions C31_asymmetric_rule2_refuted.

(** the two plies that meet between the two parts are not compared *)
Theorem C31_asymmetric_disorientation_refuted : ~ (forall pb n t,
  asymmetric_case pb n -> Nat.even n = true -> dam_tol (p_cons pb) = false -> diso (p_cons pb) = true ->
  beam pb (ply_order false n) = Ok t ->
  forall k, (k < length (t_ss t))%nat -> diso_stack (delta_angle (p_cons pb)) (stack_of t (p_thick pb) k)).
Proof.
  intros H.
  assert (V : match beam beam_sides (ply_order false 6) with
    | Ok t => nth 0 (t_ss t) [] = [([45; 0; -45], [45; 45; 45])] /\ length (t_ss t) = 3%nat | Err _ => False end) by (vm_compute; auto).
  destruct (beam beam_sides (ply_order false 6)) as [t|e] eqn:E; [|contradiction]. destruct V as [V1 V2].
  assert (Ca : asymmetric_case beam_sides 6).
  { apply example_case; [lia|]. intros l x. cbv beta. destruct (Nat.even l); apply clamp_bounded. }
  specialize (H beam_sides 6%nat t Ca eq_refl eq_refl eq_refl E 0%nat ltac:(lia)).
  unfold stack_of in H. change (p_thick beam_sides) with 0%nat in H. rewrite V1 in H. cbn [nth fst snd app] in H.
  destruct (H (-45) 45) as [q Q]; [exists [45; 0], [45; 45]; reflexivity|]. change (Z.abs (-45 - 45 + 180 * q) <= 45) in Q. lia.
Qed.
Print Assumptions C31_asymmetric_disorientation_refuted.

(** the theorems about asymmetric laminates meet these searches *)
Example C31_asymmetric_example :
  (asymmetric_case beam_sides 6 /\ diso (p_cons beam_sides) = true /\ exists t, beam beam_sides (ply_order false 6) = Ok t) /\
  (asymmetric_case beam_rule2 6 /\ dam_tol (p_cons beam_rule2) = true /\ exists t, beam beam_rule2 (ply_order false 6) = Ok t) /\
  (asymmetric_case (beam_asym false 1 5 most (prefer 0)) 5 /\ beam (beam_asym false 1 5 most (prefer 0)) (ply_order false 5) = Err IndexError).
Proof.
  split; [|split].
  - split; [apply example_case; [lia|intros l x; cbv beta; destruct (Nat.even l); apply clamp_bounded]|]. split; [reflexivity|].
    assert (V : match beam beam_sides (ply_order false 6) with Ok _ => True | Err _ => False end) by (vm_compute; exact I).
    destruct (beam beam_sides (ply_order false 6)) as [t|]; [|contradiction]. exists t; reflexivity.
  - split; [apply example_case; [lia|intros; apply clamp_bounded]|]. split; [reflexivity|].
    assert (V : match beam beam_rule2 (ply_order false 6) with Ok _ => True | Err _ => False end) by (vm_compute; exact I).
    destruct (beam beam_rule2 (ply_order false 6)) as [t|]; [|contradiction]. exists t; reflexivity.
  - split; [apply example_case; [lia|intros; apply clamp_bounded]|]. vm_compute. reflexivity.
Qed.
