(* Properties_pruning.v - C30: the pruning keeps exactly the admissible angles. *)
From Verif Require Import Base Constraints Guidelines SpecGuidelines GuidelinesProofs PdlTools PdlToolsProofs
  GroupFilters GroupFiltersProofs Properties_filters Pruning PruningProofs.
Local Open Scope Z_scope.

(** the plies of the guide panel when the angle [a] is added to the [bot] plies placed so
    far, out of [n]: the whole symmetric laminate at the last level *)
Definition with_angle (n : nat) (has_middle : bool) (bot : list Z) (a : Z) : list Z :=
  if Nat.eqb (S (length bot)) n then bot ++ (if has_middle then [a] else [a; a]) ++ rev bot else bot ++ [a].

(** adding [a] violates none of the active guidelines; damage tolerance rules 2 and 3
    exempt the two outermost plies from the disorientation rule *)
Definition admissible (c : cons) (n : nat) (has_middle : bool) (bot : list Z) (a : Z) : Prop :=
  (dam_tol c = true -> bot = [] -> pm45 a) /\
  (dam_tol c = true -> dam_tol_rule c = 2%nat -> forall x, bot = [x] -> a = - x) /\
  (dam_tol c = true -> dam_tol_rule c = 3%nat -> forall x, bot = [x] -> pm45 a) /\
  (diso c = true -> ~ (dam_tol c = true /\ (dam_tol_rule c = 2 \/ dam_tol_rule c = 3)%nat /\ length bot = 1%nat) ->
     forall b0 y, bot = b0 ++ [y] -> diso_ok (delta_angle c) y a) /\
  (contig c = true -> contig_stack (n_contig c) (with_angle n has_middle bot a)).

(** [r] lists exactly the good candidates in order, and is None if there is none *)
Definition exactly (good : Z -> Prop) (cands : list Z) (r : option (list Z)) : Prop :=
  exists p : Z -> bool, (forall a, In a cands -> (p a = true <-> good a)) /\
    ((filter p cands = [] /\ r = None) \/ (filter p cands <> [] /\ r = Some (filter p cands))).

Lemma keeps_exactly good cands r : keeps good cands r -> exactly good cands r.
Proof.
  intros [p [Hp ->]]; exists p; split; [exact Hp|].
  destruct (filter p cands); [left|right]; split; auto; discriminate.
Qed.

(** the allowed angles; the middle ply of a symmetric laminate must be 0 or 90 *)
Definition allowed (n : nat) (has_middle : bool) (bot child : list Z) : list Z :=
  if (Nat.eqb (S (length bot)) n && has_middle)%bool then [0; 90] else child.

Lemma four_ply x n : pm45 x -> (2 <= n)%nat -> contig_stack n [x; - x; - x; x].
Proof.
  intros Hx Hn B; apply has_block_nth in B; destruct B as [i [Hi H]]; cbn [length] in Hi.
  pose proof (H 1%nat ltac:(lia)) as H1; pose proof (H 2%nat ltac:(lia)) as H2.
  destruct i as [|[|i]]; [| |lia]; cbn in H1, H2; destruct Hx; subst x; discriminate.
Qed.

Theorem C30_symmetric_partial : forall c n has_middle bot top child,
  sym c = true ->
  (length bot < n)%nat -> child <> [] -> Forall angle_ok bot -> Forall angle_ok child ->
  (* the plies placed so far *)
  (contig c = true -> (2 <= n_contig c <= 6)%nat /\ contig_stack (n_contig c) bot) ->
  (dam_tol c = true -> forall x b, bot = x :: b -> pm45 x) ->
  (* where the code is right, see the refutations below *)
  (contig c = true -> S (length bot) = n -> (n_contig c <= length bot \/ 2 * length bot <= n_contig c)%nat) ->
  (dam_tol c = true -> dam_tol_rule c = 3%nat -> length bot = 1%nat ->
     (diso c = true -> diso_ok (delta_angle c) (-45) 45) /\ (contig c = true -> n = 2%nat -> (4 <= n_contig c)%nat)) ->
  exists r, pruning c n (length bot) has_middle bot top child = Ok r /\
    exactly (admissible c n has_middle bot) (allowed n has_middle bot child) r.
Proof.
  intros c n hm bot top child Hs Hlen Hne Hb Hch Hn Hd HL H3.
  assert (Ec : candidates c n (length bot) hm child = allowed n hm bot child).
  { unfold candidates, allowed; rewrite Hs; reflexivity. }
  assert (Hc' : Forall angle_ok (allowed n hm bot child)).
  { unfold allowed; destruct (_ && hm)%bool; [repeat constructor; unfold angle_ok; lia|exact Hch]. }
  destruct (dam_tol c) eqn:Ed.
  2:{ destruct (pruning_general c n (length bot) hm bot top child) as [r [E K]]; auto; [rewrite Ed; discriminate|].
      exists r; split; [exact E|]. rewrite Ec in K. apply keeps_exactly; eapply keeps_ext; [|exact K]; cbv beta.
      intros a Ha; unfold admissible, diso_good, contig_good, with_angle, mirrored; rewrite Ed.
      split; [intros [G1 G2]; split; [try discriminate; auto|split; [try discriminate; auto|split; [try discriminate; auto|split; [intros G3 _; exact (G1 G3)|exact G2]]]]|].
      intros (_ & _ & _ & G4 & G5); split; [intros G6; apply G4; [exact G6|intros [G7 _]; discriminate]|exact G5]. }
  destruct bot as [|x bot'].
  { (* level 0 *)
    unfold pruning; rewrite Ed; cbn [length Nat.eqb orb andb].
    eexists; split; [reflexivity|]. apply keeps_exactly; exists is45; split; [|rewrite Hs; destruct n as [|[|n]]; reflexivity].
    intros a Ha; rewrite is45_spec; unfold admissible; rewrite Ed; split.
    - intros G; split; [auto|]; split; [discriminate|]; split; [discriminate|]; split.
      + intros _ _ b0 y E; destruct b0; discriminate.
      + intros Hct; destruct (Hn Hct) as [Hn' _]; apply contig_short; unfold with_angle; cbn.
        destruct n as [|[|n]]; cbn; destruct hm; cbn; lia.
    - intros (G & _); auto. }
  destruct bot' as [|y bot''].
  2:{ (* level >= 2 *)
      destruct (pruning_general c n (length (x :: y :: bot'')) hm (x :: y :: bot'') top child) as [r [E K]]; auto.
      { cbn; lia. }
      exists r; split; [exact E|]. rewrite Ec in K. apply keeps_exactly; eapply keeps_ext; [|exact K]; cbv beta.
      intros a Ha; unfold admissible, diso_good, contig_good, with_angle, mirrored.
      split; [intros [G1 G2]; split; [try discriminate; auto|split; [try discriminate; auto|split; [try discriminate; auto|split; [intros G3 _; exact (G1 G3)|exact G2]]]]|].
      intros (_ & _ & _ & G4 & G5); split; [intros G6; apply G4; [exact G6|intros [_ [_ G7]]; discriminate]|exact G5]. }
  (* level 1 *)
  assert (Px : pm45 x) by (eapply Hd; eauto).
  destruct (Nat.eq_dec (dam_tol_rule c) 2) as [R2|R2]; [|destruct (Nat.eq_dec (dam_tol_rule c) 3) as [R3|R3]].
  - unfold pruning; rewrite Ed, Hs, R2; cbn [length Nat.eqb orb andb negb]. 
    assert (Ea : (if ((match n with S (S O) => true | _ => false end) && hm)%bool then [0; 90] else child) = allowed n hm [x] child).
    { unfold allowed; cbn [length]. destruct n as [|[|[|n]]]; reflexivity. }
    rewrite (filterR_ok _ (fun a => a =? - x)).
    2:{ intros a Ha; unfold second_ply; rewrite R2; cbn [Nat.eqb]. unfold getR; rewrite py_get_0; reflexivity. }
    cbn [bind]. eexists; split; [reflexivity|]. apply keeps_exactly; exists (fun a => a =? - x); split.
    + intros a Ha; rewrite Z.eqb_eq; unfold admissible; rewrite Ed, R2; split.
      * intros ->. split; [discriminate|]. split; [intros _ _ z Hz; injection Hz as <-; reflexivity|].
        split; [discriminate|]. split; [intros _ G; exfalso; apply G; auto|].
        intros Hct; destruct (Hn Hct) as [Hn' _]; unfold with_angle; cbn [length].
        destruct (Nat.eqb_spec 2 n) as [<-|N2].
        -- destruct hm; [|cbn; apply four_ply; [exact Px|lia]].
           unfold allowed in Ha; cbn in Ha. destruct Px; subst x; intuition discriminate.
        -- apply contig_short; cbn; lia.
      * intros (_ & G & _); apply G; auto.
    + unfold allowed; cbn [length]. destruct n as [|[|[|n]]]; reflexivity.
  - destruct (H3 eq_refl R3 eq_refl) as [H3a H3b].
    unfold pruning; rewrite Ed, Hs, R3; cbn [length Nat.eqb orb andb negb].
    rewrite (filterR_ok _ is45).
    2:{ intros a Ha; unfold second_ply; rewrite R3; cbn [Nat.eqb]. destruct (is45 a); [|reflexivity]; cbn [negb].
        destruct (diso c); [|reflexivity]; cbn [andb].
        assert (is_diso (-45) 45 (delta_angle c) = true) as -> by (apply is_diso_spec; [unfold angle_ok; lia|unfold angle_ok; lia|auto]).
        reflexivity. }
    cbn [bind]. eexists; split; [reflexivity|]. apply keeps_exactly; exists is45; split.
    + intros a Ha; rewrite is45_spec; unfold admissible; rewrite Ed, R3; split.
      * intros G. split; [discriminate|]. split; [discriminate|]. split; [auto|].
        split; [intros _ G'; exfalso; apply G'; auto|].
        intros Hct; destruct (Hn Hct) as [Hn' _]; unfold with_angle; cbn [length].
        destruct (Nat.eqb_spec 2 n) as [N2|N2].
        -- subst n. destruct hm.
           ++ unfold allowed in Ha; cbn in Ha. exfalso; destruct G; subst a; intuition discriminate.
           ++ apply contig_short; cbn; auto.
        -- apply contig_short; cbn; lia.
      * intros (_ & _ & G & _); eapply G; eauto.
    + unfold allowed; cbn [length]. destruct n as [|[|[|n]]]; reflexivity.
  - destruct (pruning_general c n (length [x]) hm [x] top child) as [r [E K]]; auto.
    { intros _; split; [discriminate|]. intros [G|G]; contradiction. }
    exists r; split; [exact E|]. rewrite Ec in K. apply keeps_exactly; eapply keeps_ext; [|exact K]; cbv beta.
    intros a Ha; unfold admissible, diso_good, contig_good, with_angle, mirrored.
    split; [intros [G1 G2]; split; [try discriminate; auto|split; [intros; contradiction|split; [intros; contradiction|split; [intros G3 _; exact (G1 G3)|exact G2]]]]|].
    intros (_ & _ & _ & G4 & G5); split; [intros G6; apply G4; [exact G6|intros [_ [[G7|G7] _]]; contradiction]|exact G5].
Qed.

(** asymmetric laminates without contiguity and damage tolerance rules: the new ply joins the
    bottom plies at an even level and the top plies at an odd one, and must agree with its
    neighbour there, and with both neighbours at the level n - 1 *)
Theorem C30_asymmetric_diso_partial : forall c n level has_middle bot top child,
  sym c = false -> contig c = false -> dam_tol c = false -> diso c = true ->
  child <> [] -> Forall angle_ok bot -> Forall angle_ok top -> Forall angle_ok child ->
  (S level = n -> if Nat.even level then top <> [] else bot <> []) ->
  exists r, pruning c n level has_middle bot top child = Ok r /\
    exactly (fun a => ((Nat.even level = true \/ S level = n) -> forall b y, bot = b ++ [y] -> diso_ok (delta_angle c) y a) /\
                      ((Nat.even level = false \/ S level = n) -> forall t y, top = y :: t -> diso_ok (delta_angle c) a y)) child r.
Proof.
  intros c n level hm bot top child Hs Hc Hd Hdi Hne Hb Ht Hch Hl.
  unfold pruning; rewrite Hs, Hc, Hd; cbn [andb negb].
  unfold prune_diso, prune_contig; rewrite Hdi, Hs, Hc; cbn [orb negb andb].
  assert (Bot : exists p, (match py_get bot (-1) with None => child | Some y => filter (fun a => is_diso a y (delta_angle c)) child end) = filter p child /\
    forall a, In a child -> (p a = true <-> forall b y, bot = b ++ [y] -> diso_ok (delta_angle c) y a)).
  { destruct bot as [|y b0 _] using rev_ind.
    - exists (fun _ => true); rewrite filter_true'; split; [reflexivity|]; intros; split; auto. intros _ b y E; destruct b; discriminate.
    - rewrite py_get_last. eexists; split; [reflexivity|]; intros a Ha; cbv beta. rewrite is_diso_comm, is_diso_spec.
      + split; [intros H b1 y1 E; apply app_inj_tail in E; destruct E as [_ <-]; exact H|intros H; exact (H b0 y eq_refl)].
      + rewrite Forall_forall in Hb; apply Hb, in_or_app; right; now left.
      + rewrite Forall_forall in Hch; auto. }
  assert (Top : exists p, (match py_get top 0 with None => child | Some y => filter (fun a => is_diso a y (delta_angle c)) child end) = filter p child /\
    forall a, In a child -> (p a = true <-> forall t y, top = y :: t -> diso_ok (delta_angle c) a y)).
  { destruct top as [|y t0].
    - exists (fun _ => true); rewrite filter_true'; split; [reflexivity|]; intros; split; auto. intros _ b y E; discriminate.
    - rewrite py_get_0. eexists; split; [reflexivity|]; intros a Ha; cbv beta. rewrite is_diso_spec.
      + split; [intros H b1 y1 E; injection E as <- _; exact H|intros H; exact (H t0 y eq_refl)].
      + rewrite Forall_forall in Hch; auto.
      + inversion Ht; auto. }
  assert (BotR : bot <> [] -> forall l, exists p, filterR (fun a => do y <- getR bot (-1); Ok (is_diso a y (delta_angle c))) l = Ok (filter p l) /\
    forall a, angle_ok a -> (p a = true <-> forall b y, bot = b ++ [y] -> diso_ok (delta_angle c) y a)).
  { intros Hbn l. destruct bot as [|y b0 _] using rev_ind; [congruence|]. unfold getR; rewrite py_get_last; cbn [bind].
    exists (fun a => is_diso a y (delta_angle c)); split; [apply filterR_ok; auto|]. intros a Ha. rewrite is_diso_comm, is_diso_spec; auto.
    - split; [intros H b1 y1 E; apply app_inj_tail in E; destruct E as [_ <-]; exact H|intros H; exact (H b0 y eq_refl)].
    - rewrite Forall_forall in Hb; apply Hb, in_or_app; right; now left. }
  assert (TopR : top <> [] -> forall l, exists p, filterR (fun a => do y <- getR top 0; Ok (is_diso a y (delta_angle c))) l = Ok (filter p l) /\
    forall a, angle_ok a -> (p a = true <-> forall t y, top = y :: t -> diso_ok (delta_angle c) a y)).
  { intros Htn l. destruct top as [|y t0]; [congruence|]. unfold getR; rewrite py_get_0; cbn [bind].
    exists (fun a => is_diso a y (delta_angle c)); split; [apply filterR_ok; auto|]. intros a Ha. rewrite is_diso_spec; auto.
    - split; [intros H b1 y1 E; injection E as <- _; exact H|intros H; exact (H t0 y eq_refl)].
    - inversion Ht; auto. }
  assert (Fin : forall p (good : Z -> Prop), (forall a, In a child -> (p a = true <-> good a)) ->
     exists r, (if match filter p child with [] => true | _ => false end then Ok None else Ok (Some (filter p child))) = Ok r /\ exactly good child r).
  { intros p good Hp. destruct (filter p child) eqn:F.
    - exists None; split; [reflexivity|]; exists p; split; [exact Hp|left; auto].
    - eexists; split; [reflexivity|]; exists p; split; [exact Hp|right; rewrite F; split; [discriminate|reflexivity]]. }
  rewrite Forall_forall in Hch.
  destruct Bot as [pb [Eb Hpb]], Top as [pt [Et Hpt]].
  destruct (Nat.even level) eqn:Ev; destruct (Nat.eqb_spec (S level) n) as [En|En]; rewrite ?Eb, ?Et.
  - destruct (TopR (Hl En) (filter pb child)) as [q [-> Hq]]; cbn [bind]. rewrite filter_and.
    apply Fin; intros a Ha; rewrite andb_true_iff, Hpb, Hq by auto. intuition.
  - cbn [bind]. apply Fin; intros a Ha; rewrite Hpb by auto. intuition discriminate.
  - destruct (BotR (Hl En) (filter pt child)) as [q [-> Hq]]; cbn [bind]. rewrite filter_and.
    apply Fin; intros a Ha; rewrite andb_true_iff, Hpt, Hq by auto. intuition.
  - cbn [bind]. apply Fin; intros a Ha; rewrite Hpt by auto. intuition discriminate.
Qed.

(** an asymmetric laminate with the contiguity rule and without damage tolerance rule never
    gets an angle for the ply n - 1: the code raises TypeError unless every angle is already
    excluded by the disorientation rule *)
Theorem C30_asymmetric_contig_refuted : forall c n has_middle bot top child l,
  sym c = false -> contig c = true -> dam_tol c = false -> child <> [] ->
  pruning c (S n) n has_middle bot top child <> Ok (Some l).
Proof.
  intros c n hm bot top child l Hs Hc Hd Hne. unfold pruning; rewrite Hs, Hc, Hd, Nat.eqb_refl; cbn [andb negb].
  destruct (prune_diso c true n bot top child) as [ch|e] eqn:E; cbn [bind]; [|discriminate].
  destruct ch as [|x ch].
  - destruct (diso c) eqn:Ed; cbn [andb]; [discriminate|]. unfold prune_diso in E; rewrite Ed in E; injection E as E; congruence.
  - rewrite andb_false_r. unfold prune_contig; rewrite Hc, Hs; cbn [negb filterR bind]. discriminate.
Qed.

Definition cons_rule3 : cons :=
  {| sym := true; bal := true; ipo := true; oopo := false; dam_tol := true; dam_tol_rule := 3;
     covering := true; n_covering := 1; rule_10_percent := false; rule_10_Abdalla := false; percent_Abdalla := 0%Q;
     percent_0 := 0%Q; percent_45 := 0%Q; percent_90 := 0%Q; percent_135 := 0%Q; percent_45_135 := 0%Q; percent_tot := 0%Q;
     diso := true; delta_angle := 45; contig := true; n_contig := 4; n_contig_c := Some 4%nat;
     set_of_angles := [-45; 0; 45; 90]; angles_bal := [(45, 2%nat, 0%nat)]; pdl_spacing := false; min_drop := 0 |}.
Definition cons_plain : cons :=
  {| sym := true; bal := true; ipo := true; oopo := false; dam_tol := false; dam_tol_rule := 1;
     covering := true; n_covering := 1; rule_10_percent := false; rule_10_Abdalla := false; percent_Abdalla := 0%Q;
     percent_0 := 0%Q; percent_45 := 0%Q; percent_90 := 0%Q; percent_135 := 0%Q; percent_45_135 := 0%Q; percent_tot := 0%Q;
     diso := true; delta_angle := 45; contig := true; n_contig := 4; n_contig_c := Some 4%nat;
     set_of_angles := [-45; 0; 45; 90]; angles_bal := [(45, 2%nat, 0%nat)]; pdl_spacing := false; min_drop := 0 |}.

(** damage tolerance rule 3: when two plies at 45 and -45 may not lie on each other, exactly
    the angle that does not repeat the outer ply is kept: 45 on 45 is lost *)
Theorem C30_rule3_refuted :
  ~ (forall c n has_middle bot top child,
  sym c = true ->
  (length bot < n)%nat -> child <> [] -> Forall angle_ok bot -> Forall angle_ok child ->
  (contig c = true -> (2 <= n_contig c <= 6)%nat /\ contig_stack (n_contig c) bot) ->
  (dam_tol c = true -> forall x b, bot = x :: b -> pm45 x) ->
  (contig c = true -> S (length bot) = n -> (n_contig c <= length bot \/ 2 * length bot <= n_contig c)%nat) ->
  exists r, pruning c n (length bot) has_middle bot top child = Ok r /\
    exactly (admissible c n has_middle bot) (allowed n has_middle bot child) r).
Proof.
  intros H. destruct (H cons_rule3 4%nat false [45] [] [-45; 0; 45; 90]) as [r [E [p [Hp R]]]];
    try (intros; reflexivity); try discriminate.
  - cbn; lia.
  - repeat constructor; lia.
  - repeat constructor; lia.
  - intros _; split; [cbn; lia|apply contig_short; cbn; lia].
  - intros _ x b Hx; injection Hx as <- _; now left.
  - vm_compute in E; injection E as <-.
    assert (p 45 = true) as Hx.
    { apply Hp; [cbn; auto|]. unfold admissible. split; [discriminate|]. split; [discriminate|]. split; [left; reflexivity|].
      split; [intros _ G; exfalso; apply G; cbn; auto|]. intros _; apply contig_short; cbn; lia. }
    assert (In 45 (filter p (allowed 4 false [45] [-45; 0; 45; 90]))) as Hin by (apply filter_In; split; [cbn; auto|exact Hx]).
    destruct R as [[_ R]|[_ R]]; [discriminate|]. set (ff := filter p _) in *. assert (ff = [-45]) as R' by congruence. rewrite R' in Hin. cbn in Hin; intuition discriminate.
Qed.

(** the last level of a laminate with fewer plies below than n_contig: the negative start of
    the slice drops the outer plies, and eight plies at 0 pass a limit of four *)
Theorem C30_short_laminate_refuted :
  ~ (forall c n has_middle bot top child,
  sym c = true ->
  (length bot < n)%nat -> child <> [] -> Forall angle_ok bot -> Forall angle_ok child ->
  (contig c = true -> (2 <= n_contig c <= 6)%nat /\ contig_stack (n_contig c) bot) ->
  dam_tol c = false ->
  exists r, pruning c n (length bot) has_middle bot top child = Ok r /\
    exactly (admissible c n has_middle bot) (allowed n has_middle bot child) r).
Proof.
  intros H. destruct (H cons_plain 4%nat false [0; 0; 0] [] [0; 45]) as [r [E [p [Hp R]]]];
    try (intros; reflexivity); try discriminate.
  - cbn; lia.
  - repeat constructor; lia.
  - repeat constructor; lia.
  - intros _; split; [cbn; lia|apply contig_short; cbn; lia].
  - vm_compute in E; injection E as <-.
    destruct R as [[_ R]|[_ R]]; [discriminate|].
    assert (In 0 (filter p (allowed 4 false [0; 0; 0] [0; 45]))) as Hin.
    { set (ff := filter p _) in *. assert (ff = [0; 45]) as R' by congruence. rewrite R'; now left. }
    apply filter_In in Hin; destruct Hin as [Hi1 Hi2]. apply Hp in Hi2; [|exact Hi1].
    destruct Hi2 as (_ & _ & _ & _ & G). apply (G eq_refl). exists 0, [], [0; 0; 0]; reflexivity.
Qed.

(** non-vacuous: the third 0 in a row is refused with n_contig = 2 *)
Example C30_example :
  pruning cons_ex 6 2 false [45; 0] [] [-45; 0; 45; 90] = Ok (Some [-45; 0; 45]) /\
  pruning cons_ex 6 3 false [45; 0; 0] [] [-45; 0; 45; 90] = Ok (Some [-45; 45]) /\
  pruning cons_ex 4 3 false [45; 0; 45] [] [-45; 0; 45; 90] = Ok (Some [0; 90]) /\
  pruning cons_ex 4 3 true [45; 0; 45] [] [-45; 0; 45; 90] = Ok (Some [0; 90]) /\
  (contig_stack 2 [45; 0; 45] /\ Forall angle_ok [45; 0; 45] /\ (2 <= length [45; 0; 45])%nat).
Proof.
  repeat (split; [vm_compute; reflexivity|]). split; [|split; [repeat constructor; lia|cbn; lia]].
  intros B; apply has_block_nth in B; destruct B as [i [Hi G]]; cbn [length] in Hi.
  assert (i = 0%nat) by lia; subst i. specialize (G 1%nat ltac:(lia)); discriminate.
Qed.
