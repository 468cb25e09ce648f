(* Properties_tight.v - statements added after the generated wrong programs of seeded/LOG.jsonl
   that no earlier theorem noticed. *)
From Coq Require Import Lqa String.
From Verif Require Import Base Uniq Constraints Guidelines SpecGuidelines GuidelinesProofs ConstraintsProofs Divers Divide Moments Spacing Strip Format Search Objectives SpecRedesign Redesign RedesignProofs Membrane
  Flexural FlexuralProofs Properties_flexural Layla Properties_layla2 Inputs LaylaInputs LaylaRun Properties_laylarun SavedSetup Properties_savedsetup.
Local Open Scope Z_scope.

(* ------------------------------------------------------------------ *)
(** ** C36: what the out-of-plane refinement does with an angle that is not allowed, and how
    many positions it may be given *)
Lemma unknown_some c t : (exists a, In a t /\ ~ In a (set_of_angles c) /\ a <> -90) -> known c t = false.
Proof.
  intros [a [I [N M]]]. unfold known. apply not_true_is_false. intros H. rewrite forallb_forall in H. specialize (H a I).
  unfold ind_angle in H. destruct (Z.eqb_spec a (-90)); [contradiction|]. cbn [andb] in H.
  destruct (Uniq.index_of a (set_of_angles c)) eqn:E; [|discriminate]. apply Uniq.index_of_some in E as [_ [E _]]. apply N. eapply nth_error_In; eauto.
Qed.
(** a stack with an angle that is not one of the constraints is not refined: KeyError. Of a
    symmetric stack the first half and the middle ply count *)
Theorem C36_flexural_unknown_angle : forall c cos_sin coeffs target n_D2 t,
  (exists a, In a t /\ ~ In a (set_of_angles c) /\ a <> -90) -> (sym c = true -> t = rev t) ->
  repair_flexural_1 c cos_sin coeffs target t = Err KeyError /\
  repair_flexural_2 c cos_sin coeffs target n_D2 t = Err KeyError /\
  repair_flexural_3 c cos_sin coeffs target n_D2 t = Err KeyError.
Proof.
  intros c cs co ta n_D2 t [a [I N]] P.
  assert (K : known c (if sym c then firstn (length t - length t / 2) t else t) = false).
  { apply unknown_some. exists a. split; [|exact N]. destruct (sym c) eqn:Y; [|exact I]. specialize (P eq_refl).
    apply (In_nth _ _ 0) in I as [k [K1 K2]]. pose proof (half_facts (length t)) as F. set (h := (length t / 2)%nat) in *.
    assert (G : forall j, (j < length t - h)%nat -> In (nth j t 0) (firstn (length t - h) t)).
    { intros j Hj. rewrite <- (firstn_skipn (length t - h) t) at 1. rewrite app_nth1 by (rewrite firstn_length; lia). apply nth_In. rewrite firstn_length. lia. }
    destruct (lt_dec k (length t - h)) as [L|L]; [rewrite <- K2; apply G; exact L|].
    rewrite <- K2. assert (E : nth k t 0 = nth (length t - Datatypes.S k) t 0) by (rewrite P at 1; apply rev_nth; exact K1). rewrite E. apply G. lia. }
  unfold repair_flexural_1, repair_flexural_2, repair_flexural_3, repair_flexural_shift. rewrite K. auto.
Qed.
Print Assumptions C36_flexural_unknown_angle.

(** without disorientation and contiguity rules the refinement answers whatever the number of
    positions it is given (with them, see C36_flexural_one_position_refuted) *)
Theorem C36_flexural_plain_total : forall c cos_sin coeffs target multi switch n_D2 n_D3 t,
  diso c = false -> contig c = false ->
  Forall (fun x => In x (set_of_angles c)) t -> (sym c = true -> t = rev t) ->
  (forall u, Permutation.Permutation u t -> oop_objective cos_sin coeffs target u <= 10000000000)%Q ->
  exists t', repair_flexural c cos_sin coeffs target multi switch n_D2 n_D3 t = Ok t'.
Proof.
  intros c cs co ta multi sw n_D2 n_D3 t D K Al P B. unfold repair_flexural. destruct (sw && _)%bool; [|eexists; reflexivity].
  revert t Al P B. induction n_D3 as [|k IH]; intros t Al P B; cbn [flexural_loop]; [eexists; reflexivity|].
  rewrite D, K. cbn [orb].
  destruct (C36_flexural_shift_total c cs co ta false n_D2 t ltac:(discriminate) ltac:(congruence) Al P (B t (Permutation.Permutation_refl _))) as [s E].
  destruct (C36_flexural_shift _ _ _ _ _ _ _ _ P (B t (Permutation.Permutation_refl _)) E) as [R _].
  unfold repair_flexural_3. rewrite E. cbn [bind].
  destruct R as [Pm _ Sy]. apply IH.
  - rewrite Forall_forall in *. intros x Hx. apply Al. eapply Permutation.Permutation_in; [exact Pm|exact Hx].
  - intros Y. apply (Sy Y).
  - intros u Hu. apply B. rewrite Hu. exact Pm.
Qed.
Print Assumptions C36_flexural_plain_total.

Definition args_tight : cargs := {|
  a_sym := true; a_bal := false; a_oopo := false; a_dam_tol := true; a_rule_10_percent := false; a_rule_10_Abdalla := false; a_percent_Abdalla := 0;
  a_combine_45_135 := true; a_calc_combine_45_135 := true; a_percent_0 := 0; a_percent_45 := 0; a_percent_90 := 0; a_percent_135 := 0;
  a_percent_45_135 := 0; a_diso := false; a_contig := false; a_n_contig := 1; a_delta_angle := 45;
  a_dam_tol_rule := 1; a_set_of_angles := [0; 45; 90; -45]; a_min_drop := 1; a_pdl_spacing := false; a_covering := false; a_n_covering := 0 |}.
Example C36_flexural_tight_example : exists c, mk_cons args_tight = Ok c /\ diso c = false /\ contig c = false /\
  (let t := [45; 0; 90; 90; 0; 45] in Forall (fun x => In x (set_of_angles c)) t /\ t = rev t) /\
  (let t := [45; 0; 30; 30; 0; 45] in t = rev t /\ exists a, In a t /\ ~ In a (set_of_angles c) /\ a <> -90).
Proof.
  destruct (mk_cons args_tight) as [c|] eqn:E; [|vm_compute in E; discriminate]. exists c. vm_compute in E. injection E as <-. cbn.
  split; [reflexivity|]. split; [reflexivity|]. split; [reflexivity|]. split; [split; [repeat (apply Forall_cons; [cbn; auto 8|]); apply Forall_nil|reflexivity]|]. split; [reflexivity|].
  exists 30. split; [auto|]. split; [|discriminate]. intros H. repeat destruct H as [H|H]; discriminate || contradiction.
Qed.

(* ------------------------------------------------------------------ *)
(** ** C77, C89: the lamination parameters that LAYLA reports *)
Lemma distance_each : forall a b i, (i < List.length a)%nat -> (i < List.length b)%nat -> (Qabs (nth i a 0 - nth i b 0) <= distance a b)%Q.
Proof.
  unfold distance. induction a as [|x a IH]; intros b i Ha Hb; [cbn in Ha; lia|]. destruct b as [|y b]; [cbn in Hb; lia|].
  cbn [List.combine map fst snd]. rewrite sumQ_cons.
  assert (N : forall l : list (Q * Q), (0 <= sumQ (map (fun p => Qabs (fst p - snd p)) l))%Q).
  { induction l as [|z l IHl]; [cbn; lra|]. cbn [map]. rewrite sumQ_cons. pose proof (Qabs_nonneg (fst z - snd z)). lra. }
  destruct i as [|i]; cbn [nth].
  - specialize (N (List.combine a b)). lra.
  - cbn in Ha, Hb. specialize (IH b i ltac:(lia) ltac:(lia)). pose proof (Qabs_nonneg (x - y)). lra.
Qed.
(** each lamination parameter of the design that is returned is that of its stack, up to 1e-10 *)
Theorem C77_reported_lampam : forall search lampam_of gate sym angles cos_sin gmin gmax n n_outer r,
  layla_optimiser search lampam_of gate sym angles cos_sin gmin gmax n n_outer = Ok r ->
  forall i, (i < List.length (r_lampam r))%nat -> (i < List.length (lampam_of (r_ss r)))%nat ->
  (Qabs (nth i (r_lampam r) 0 - nth i (lampam_of (r_ss r)) 0) <= 1 # 10000000000)%Q.
Proof.
  intros search lampam_of gate sym angles cs gmin gmax n n_outer r H i Hi Hj.
  destruct (C77_feasible _ _ _ _ _ _ _ _ _ _ _ H) as [_ [_ D]]. pose proof (distance_each _ _ i Hi Hj). lra.
Qed.
Print Assumptions C77_reported_lampam.
(** all twelve of a run *)
Theorem C89_reported_lampam : forall c p n x r, layla c p n x = Ok r ->
  List.length (r_lampam r) = 12%nat /\
  forall i, (i < 12)%nat -> (Qabs (nth i (r_lampam r) 0 - x_lampam_of x (r_ss r) i) <= 1 # 10000000000)%Q.
Proof.
  intros c p n x r H. unfold layla in H.
  pose proof (C77_reported_lampam _ _ _ _ _ _ _ _ _ _ _ H) as C.
  destruct (C77_result _ _ _ _ _ _ _ _ _ _ _ H) as [outs [_ [_ [S1 [_ [_ [B _]]]]]]].
  assert (L : List.length (r_lampam r) = 12%nat).
  { destruct (S1 _ _ B) as [[[sizes [levels [assumed [_ Se]]]] _] _]. unfold layla_step in Se.
    apply bind_inv in Se as [[[[ss lp] obj] stats] [_ Se]]. injection Se as _ El _. rewrite <- El. reflexivity. }
  split; [exact L|]. intros i Hi.
  assert (E : forall lp : lampam, nth i (vector lp) 0%Q = lp i).
  { intros lp. do 12 (destruct i as [|i]; [reflexivity|]). lia. }
  rewrite <- (E (x_lampam_of x (r_ss r))). apply C; [rewrite L; exact Hi|]. unfold vector. rewrite map_length, seq_length. exact Hi.
Qed.
Print Assumptions C89_reported_lampam.

(* ------------------------------------------------------------------ *)
(** ** C92: what the cells of the constraints mean *)
(** of the two forms of the 10% rule, the cells say which one is in force *)
Theorem C92_ten_percent_cells : forall c,
  lookup (save_constraints c) "10% rule" = Ok (CBool (rule_10_percent c)) /\
  (lookup (save_constraints c) "10% rule applied on LPs" = Ok (CBool true) <-> rule_10_percent c = true /\ rule_10_Abdalla c = true) /\
  (lookup (save_constraints c) "10% rule applied on ply percentages" = Ok (CBool true) <-> rule_10_percent c = true /\ rule_10_Abdalla c = false).
Proof.
  intros c. split; [reflexivity|].
  change (lookup (save_constraints c) "10% rule applied on LPs") with (@Ok cell (CBool (rule_10_percent c && rule_10_Abdalla c))).
  change (lookup (save_constraints c) "10% rule applied on ply percentages") with (@Ok cell (CBool (rule_10_percent c && negb (rule_10_Abdalla c)))).
  destruct (rule_10_percent c), (rule_10_Abdalla c); cbn; split; split; intros H; first [discriminate | destruct H; discriminate | auto].
Qed.
Print Assumptions C92_ten_percent_cells.

(* ------------------------------------------------------------------ *)
(** ** C37: in the first re-design each ply-drop layout is considered once *)
(** the panels thinner than the reference panel (numbers below [ref]) whose layout is chosen *)
Definition decided (r : nat -> bool) (ref : nat) (x : layout) : Prop :=
  forall i, (i < ref)%nat -> (nth i (l_pdl x) None <> None <-> r i = true).
(** the two designs have the same layout in all these panels *)
Definition same_design (ref : nat) (x y : layout) : Prop := forall i, (i < ref)%nat -> nth i (l_pdl x) None = nth i (l_pdl y) None.

Lemma is_same_pdl_spec r ref x y : decided r ref x -> decided r ref y -> is_same_pdl ref x y = true <-> same_design ref x y.
Proof.
  intros Dx Dy. unfold is_same_pdl, same_design. rewrite forallb_forall. split; intros H i Hi.
  - specialize (H i ltac:(apply in_seq; lia)). specialize (Dx i Hi). specialize (Dy i Hi). unfold same_row in H.
    destruct (nth i (l_pdl x) None) as [a|], (nth i (l_pdl y) None) as [b|].
    + destruct (list_eq_dec Z.eq_dec a b); [congruence|discriminate].
    + exfalso. apply Dy; [apply Dx; discriminate|reflexivity].
    + exfalso. apply Dx; [apply Dy; discriminate|reflexivity].
    + reflexivity.
  - apply in_seq in Hi. rewrite (H i ltac:(lia)). unfold same_row. destruct (nth i (l_pdl y) None) as [b|]; [|reflexivity].
    destruct (list_eq_dec Z.eq_dec b b); [reflexivity|contradiction].
Qed.

(** of the candidates that have the same layout one is kept *)
Theorem C37_equal_layouts_once : forall r ref l, Forall (fun x => decided r ref (fst x)) l ->
  let kept := dedupe (is_same_pdl ref) l in
  (forall x, In x kept -> In x l) /\
  (forall x, In x l -> exists y, In y kept /\ same_design ref (fst x) (fst y)) /\
  ForallOrdPairs (fun x y => ~ same_design ref (fst x) (fst y)) kept.
Proof.
  intros r ref l. induction l as [|x l IH]; intros D; cbn [dedupe].
  - repeat split; [intros x []|intros x []|constructor].
  - pose proof (Forall_inv D) as Dx. specialize (IH (Forall_inv_tail D)). pose proof (Forall_inv_tail D) as Dl. cbv zeta in IH.
    destruct IH as [I1 [I2 I3]]. rewrite Forall_forall in Dl.
    destruct (existsb (fun y => is_same_pdl ref (fst x) (fst y)) l) eqn:E.
    + apply existsb_exists in E as [y [Iy Sy]]. cbv zeta. split; [intros z Iz; right; auto|]. split; [|exact I3].
      intros z [<-|Iz]; [|auto]. destruct (I2 y Iy) as [w [Iw Sw]]. exists w. split; [exact Iw|].
      apply (is_same_pdl_spec r ref (fst x) (fst y) Dx (Dl y Iy)) in Sy. intros i Hi. rewrite (Sy i Hi). auto.
    + cbv zeta. split; [intros z [<-|Iz]; [left; reflexivity|right; auto]|]. split.
      * intros z [<-|Iz]; [exists x; split; [left; reflexivity|intros i Hi; reflexivity]|]. destruct (I2 z Iz) as [w [Iw Sw]]. exists w. split; [right; exact Iw|exact Sw].
      * constructor; [|exact I3]. rewrite Forall_forall. intros y Iy Sy. apply I1 in Iy.
        apply (is_same_pdl_spec r ref (fst x) (fst y) Dx (Dl y Iy)) in Sy.
        assert (existsb (fun y => is_same_pdl ref (fst x) (fst y)) l = true) by (apply existsb_exists; eauto). congruence.
Qed.
Print Assumptions C37_equal_layouts_once.

Example C37_equal_layouts_once_example :
  let node p o : node := ({| l_pdl := [Some p; None]; l_used := []; l_last := 0; l_spacing := 0; l_queue := [] |},
    {| v_counts := []; v_lampam := []; v_diso := []; v_objs := []; v_obj := o |}) in
  let l := [node [0; -1] 1%Q; node [-1; 0] 2%Q; node [0; -1] 3%Q] in
  Forall (fun x => decided (fun i => Nat.eqb i 0) 2 (fst x)) l /\
  dedupe (is_same_pdl 2) l = [node [-1; 0] 2%Q; node [0; -1] 3%Q].
Proof.
  split; [|reflexivity]. do 3 (apply Forall_cons; [intros i Hi; destruct i as [|[|i]]; [cbn; split; [reflexivity|discriminate]|cbn; split; [congruence|discriminate]|lia]|]). apply Forall_nil.
Qed.

Definition dec (n : nat) (r : nat -> bool) (x : layout) : Prop :=
  length (l_pdl x) = n /\ forall i, nth i (l_pdl x) None <> None <-> r i = true.
Lemma dec_decided n r ref x : dec n r x -> decided r ref x.
Proof. intros [_ H] i _. apply H. Qed.

Lemma set_row_dec n r (m x : layout) p (row : list Z) k : dec n r m -> py_index n p = Ok k -> set_row (l_pdl m) p row = Ok (l_pdl x) ->
  dec n (fun i => (Nat.eqb i k || r i)%bool) x.
Proof.
  intros [L D] Ek H. unfold set_row in H. rewrite L, Ek in H. cbn [bind] in H. injection H as H. split; [rewrite <- H, upd_length; exact L|].
  intros i. rewrite <- H, nth_upd, (Nat.eqb_sym k i). pose proof Ek as Lk. destruct (Nat.eqb_spec i k) as [->|]; cbn [orb].
  - destruct (Nat.ltb_spec k (length (l_pdl m))); [split; [reflexivity|intros _; rewrite ?Nat.eqb_refl; discriminate]|].
    exfalso. clear - Lk L H0. unfold py_index in Lk.
    destruct (0 <=? p) eqn:E1, (p <? Z.of_nat n) eqn:E2, (- Z.of_nat n <=? p) eqn:E3, (p <? 0) eqn:E4; cbn [andb] in Lk; try discriminate; injection Lk as <-; lia.
  - apply D.
Qed.

Section Apart.
Variables (c : cons) (st : strip) (lampam : list Z -> list Q) (dist : list Q -> Q) (targets weights : list (list Q)) (pw : list Q)
  (plies : list Z) (ref : nat) (pdl_ref : list Z) (local_limit global_limit : nat).
Let br := thin_branch c st plies pdl_ref.
Let ev := thin_evaluate c lampam dist targets weights pw plies pdl_ref.

Lemma search_apart ss : forall k ms nodes n r, Forall (fun x => dec n r (fst x)) ms ->
  search br ev (is_same_pdl ref) local_limit global_limit k ss ms = Ok (Some nodes) -> ss <> [] ->
  ForallOrdPairs (fun x y => ~ same_design ref (fst x) (fst y)) nodes.
Proof.
  induction ss as [|s ss IH]; intros k ms nodes n r F H N; [contradiction|]. cbn [search] in H.
  destruct ms as [|m ms]; [discriminate|]. set (final := match ss with [] => true | _ :: _ => false end) in *.
  destruct (expand_all _ _ _ _ _ _ (m :: ms)) as [l0|] eqn:E0; [|discriminate]. cbn [bind] in H.
  match type of H with bind ?z _ = _ => destruct z as [l2|] eqn:E2; [|discriminate] end. cbn [bind] in H.
  match type of H with bind ?z _ = _ => destruct z as [l3|] eqn:E3; [|discriminate] end. cbn [bind] in H.
  assert (X : exists r', Forall (fun x => dec n r' (fst x)) l0).
  { destruct (py_index n (s_panel s)) as [p|e] eqn:Ep.
    - exists (fun i => (Nat.eqb i p || r i)%bool).
      assert (G := expand_all_in br ev local_limit (fun j x => if Nat.eqb j k then dec n r x else dec n (fun i => (Nat.eqb i p || r i)%bool) x) (fun _ _ => True) final k s (m :: ms) l0).
      cbv beta in G. rewrite Nat.eqb_refl in G. replace (Nat.eqb (S k) k) with false in G by (symmetry; apply Nat.eqb_neq; lia).
      assert (Y : Forall (fun y => dec n (fun i => (Nat.eqb i p || r i)%bool) (fst y) /\ True) l0).
      { apply G; [|rewrite Forall_forall in *; intros x Hx; split; [apply F, Hx|exact Logic.I]|exact E0].
        intros m0 l x v J _ Hb Hx He. rewrite Nat.eqb_refl in J. replace (Nat.eqb (S k) k) with false by (symmetry; apply Nat.eqb_neq; lia). split; [|exact Logic.I].
        unfold br, thin_branch in Hb. destruct (thin_positions c plies) as [ps|]; [|discriminate]. cbn [bind] in Hb.
        destruct (children_in _ _ _ _ Hb Hx) as (q & _ & Hc). apply thin_child_ok in Hc as (row & row2 & _ & _ & Es & _).
        eapply set_row_dec; eauto. }
      rewrite Forall_forall in *. intros x Hx. apply Y, Hx.
    - exists r.
      assert (G := expand_all_in br ev local_limit (fun j x => dec n r x) (fun _ _ => True) final k s (m :: ms) l0).
      assert (Y : Forall (fun y => dec n r (fst y) /\ True) l0).
      { apply G; [|rewrite Forall_forall in *; intros x Hx; split; [apply F, Hx|exact Logic.I]|exact E0].
        intros m0 l x v J _ Hb Hx He. exfalso.
        unfold br, thin_branch in Hb. destruct (thin_positions c plies) as [ps|]; [|discriminate]. cbn [bind] in Hb.
        destruct (children_in _ _ _ _ Hb Hx) as (q & _ & Hc). apply thin_child_ok in Hc as (row & row2 & _ & _ & Es & _).
        unfold set_row in Es. destruct J as [L _]. rewrite L, Ep in Es. discriminate. }
      rewrite Forall_forall in *. intros x Hx. apply Y, Hx. }
  destruct X as [r' F'].
  destruct ss as [|s' ss].
  - subst final. injection E2 as <-. injection E3 as <-. cbn [search] in H.
    assert (nodes = dedupe (is_same_pdl ref) l0) as -> by (destruct (dedupe (is_same_pdl ref) l0); [discriminate|injection H as <-; reflexivity]).
    apply (C37_equal_layouts_once r' ref). rewrite Forall_forall in *. intros x Hx. apply (dec_decided n), F', Hx.
  - apply (IH (S k) l3 nodes n r'); [|exact H|discriminate].
    rewrite Forall_forall in *. intros x Hx. apply F'. apply (dedupe_in (is_same_pdl ref)).
    exact (prune_ties_in _ _ _ _ _ E2 (prune_best_in _ _ _ _ _ E3 Hx)).
Qed.
End Apart.

(** the designs among which the first re-design chooses at the end all differ *)
Theorem C37_final_candidates_differ : forall c st lampam dist targets weights pw plies ref pdl_ref ss_ref lp_ref local_limit global_limit m s steps nodes,
  thin_start c plies ref pdl_ref ss_ref lp_ref = Ok m -> (ref < length plies)%nat ->
  search (thin_branch c st plies pdl_ref) (thin_evaluate c lampam dist targets weights pw plies pdl_ref) (is_same_pdl ref)
    local_limit global_limit 0 (s :: steps) [m] = Ok (Some nodes) ->
  ForallOrdPairs (fun x y => ~ same_design ref (fst x) (fst y)) nodes.
Proof.
  intros c st lampam dist targets weights pw plies ref pdl_ref ss_ref lp_ref ll gl m s steps nodes H R E.
  apply (search_apart c st lampam dist targets weights pw plies ref pdl_ref ll gl (s :: steps) 0%nat [m] nodes (length plies) (fun i => Nat.eqb i ref)); [|exact E|discriminate].
  constructor; [|constructor]. unfold thin_start in H. destruct (count_plies _ _ _) as [x|]; [|discriminate]. cbn [bind] in H. injection H as <-.
  unfold dec. cbn [fst l_pdl]. unfold nones. rewrite upd_length, repeat_length. split; [reflexivity|]. intros i. rewrite nth_upd, repeat_length, (Nat.eqb_sym ref i).
  destruct (Nat.eqb_spec i ref) as [->|].
  - destruct (Nat.ltb_spec ref (length plies)); [split; [reflexivity|intros _; rewrite ?Nat.eqb_refl; discriminate]|lia].
  - rewrite nth_repeat. split; [intros X; cbn in X; congruence|intros X; discriminate X].
Qed.
Print Assumptions C37_final_candidates_differ.
