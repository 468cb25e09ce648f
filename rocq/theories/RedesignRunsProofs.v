(* RedesignRunsProofs.v - the re-design of the ply drops never stops with an exception: lemmas *)
From Coq Require Import Lqa.
From Verif Require Import Base Uniq Constraints Guidelines SpecGuidelines GuidelinesProofs ConstraintsProofs GateProofs Divers DiversProofs Spacing SpacingProofs Strip StripProofs Format Search SearchProofs Objectives SpecRedesign Redesign RedesignProofs RedesignThick.
Local Open Scope Z_scope.

(* ------------------------------------------------------------------ *)
(** ** the search *)
Lemma upd_nonempty {A} i (x : A) l : l <> [] -> upd i x l <> [].
Proof. destruct l; [congruence|]. destruct i; discriminate. Qed.
Lemma mark_total s : forall k v, v <> [] -> exists r, mark argmin s k v = Ok r.
Proof.
  induction k as [|k IH]; intros v Hv; cbn [mark]; [eauto|].
  destruct (argmin_ok v Hv) as (i & -> & _). cbn [bind].
  destruct (IH (upd i s v) (upd_nonempty _ _ _ Hv)) as (r & ->). cbn [bind]. eauto.
Qed.
Lemma ties_total lim : forall f acc v, v <> [] -> exists r, ties f lim acc v = Ok r.
Proof.
  induction f as [|f IH]; intros acc v Hv; cbn [ties]; [eauto|].
  destruct (Nat.ltb _ _); [|eauto]. destruct (argmin_ok v Hv) as (i & -> & _). cbn [bind]. apply IH.
  intros E. apply map_eq_nil in E. contradiction.
Qed.
Lemma prune_ties_total {A} lim key (l : list A) : exists r, prune_ties lim key l = Ok r.
Proof.
  unfold prune_ties. destruct (Nat.ltb_spec lim (length l)); [|eauto].
  destruct (ties_total lim lim [] (map key l)) as (r & ->); [|cbn [bind]; eauto].
  destruct l; [cbn in H; lia|discriminate].
Qed.
Lemma prune_best_total {A} lim key (l : list A) : exists r, prune_best lim key l = Ok r.
Proof.
  unfold prune_best, best_indices. destruct (Nat.ltb_spec lim (length l)); [|eauto].
  destruct (mark_total 1000 lim (map key l)) as (r & ->); [|cbn [bind]; eauto].
  destruct l; [cbn in H; lia|discriminate].
Qed.

Section Total.
Variables (branch : nat -> step -> node -> result (list layout)) (evaluate : step -> node -> layout -> result (option values_of)).
Variables (same : layout -> layout -> bool) (local_limit global_limit : nat).
Variables (J : nat -> layout -> Prop) (K : nat -> values_of -> Prop).
(** a node can be expanded *)
Definition runs (k : nat) (s : step) : Prop :=
  forall m, J k (fst m) -> K k (snd m) ->
    exists l, branch k s m = Ok l /\ forall x, In x l -> exists o, evaluate s m x = Ok o.

Lemma visit_total s m l : (forall x, In x l -> exists o, evaluate s m x = Ok o) -> exists r, visit evaluate s m l = Ok r.
Proof.
  induction l as [|x l IH]; intros H; cbn [visit]; [eauto|].
  destruct (H x ltac:(now left)) as (o & ->). cbn [bind].
  destruct IH as (r & ->); [intros; apply H; now right|]. cbn [bind]. destruct o; eauto.
Qed.
Lemma expand_node_total final k s m : runs k s -> J k (fst m) -> K k (snd m) ->
  exists r, expand_node branch evaluate local_limit final k s m = Ok r.
Proof.
  intros R HJ HK. destruct (R m HJ HK) as (l & E & V). unfold expand_node. rewrite E. cbn [bind].
  destruct (prune_ties_total local_limit l_spacing l) as (l1 & E1). rewrite E1. cbn [bind]. unfold survivors.
  destruct (visit_total s m (rev l1)) as (r & Er).
  { intros x Hx. apply in_rev in Hx. apply V. eapply prune_ties_in; eauto. }
  rewrite Er. cbn [bind]. destruct final; [eauto|apply prune_best_total].
Qed.
Lemma expand_all_total final k s ms : runs k s -> Forall (fun y => J k (fst y) /\ K k (snd y)) ms ->
  exists r, expand_all branch evaluate local_limit final k s ms = Ok r.
Proof.
  intros R F. induction F as [|m ms [HJ HK] F IH]; cbn [expand_all]; [eauto|].
  destruct (expand_node_total final k s m R HJ HK) as (a & ->). cbn [bind]. destruct IH as (b & ->). cbn [bind]. eauto.
Qed.
Lemma search_total ss : forall k ms,
  (forall j s, nth_error ss j = Some s -> inherits branch evaluate J K (k + j) s /\ runs (k + j) s) ->
  Forall (fun y => J k (fst y) /\ K k (snd y)) ms ->
  exists r, search branch evaluate same local_limit global_limit k ss ms = Ok r.
Proof.
  induction ss as [|s ss IH]; intros k ms I F; cbn [search]; [destruct ms; eauto|].
  destruct ms as [|m ms]; [eauto|]. cbv zeta. set (final := match ss with [] => true | _ :: _ => false end) in *.
  destruct (I 0%nat s eq_refl) as (I0 & R0). rewrite Nat.add_0_r in I0, R0.
  destruct (expand_all_total final k s (m :: ms) R0 F) as (l0 & E0). rewrite E0. cbn [bind]. cbv zeta.
  pose proof (expand_all_in _ _ _ _ _ final k s (m :: ms) l0 I0 F E0) as F0.
  match goal with |- context [bind ?z _] => assert (exists l2, z = Ok l2) as (l2 & E2) by (destruct final; [eauto|apply prune_ties_total]) end.
  rewrite E2. cbn [bind].
  match goal with |- context [bind ?z _] => assert (exists l3, z = Ok l3) as (l3 & E3) by (destruct final; [eauto|apply prune_best_total]) end.
  rewrite E3. cbn [bind]. apply IH.
  - intros j s' Hj. rewrite Nat.add_succ_comm. apply I. exact Hj.
  - rewrite Forall_forall in F0 |- *. intros x Hx. apply F0, (dedupe_in same).
    destruct final; [injection E3 as <-; injection E2 as <-; exact Hx|].
    eapply prune_ties_in; [exact E2|]. eapply prune_best_in; eauto.
Qed.
End Total.

Lemma children_total {A B} (f : A -> result (option B)) l : (forall x, In x l -> exists o, f x = Ok o) -> exists r, children f l = Ok r.
Proof.
  induction l as [|x l IH]; intros H; cbn [children]; [eauto|].
  destruct (H x ltac:(now left)) as (o & ->). cbn [bind]. destruct IH as (r & ->); [intros; apply H; now right|]. cbn [bind]. destruct o; eauto.
Qed.

(* ------------------------------------------------------------------ *)
(** ** ply drop spacing of a table some of whose rows are not yet designed *)
Lemma spacing_1ss_total ss md : ss <> [] -> exists p, calc_penalty_spacing_1ss ss md = Ok p.
Proof. intros H. destruct (spacing_1ss_spec ss md H) as (p & E & _). eauto. Qed.

Lemma boundary_line_total l1 l2 : length l1 = length l2 -> (exists x, In x l1 /\ x <> -1) ->
  exists line, boundary_line l1 l2 = Ok line /\ line <> [].
Proof.
  intros E (x & Hx & Nx). unfold boundary_line. rewrite E, Nat.eqb_refl. cbn [negb].
  set (f := fun p : Z * Z => (negb (fst p =? -1) || negb (fst p =? snd p))%bool).
  assert (Ne : filter f (List.combine l1 l2) <> []).
  { destruct (In_nth_error _ _ Hx) as (i & Hi).
    assert (Li : (i < length l2)%nat) by (rewrite <- E; apply nth_error_Some; congruence).
    destruct (nth_error l2 i) as [y|] eqn:Hy; [|apply nth_error_None in Hy; lia].
    assert (I : In (x, y) (List.combine l1 l2)).
    { clear - Hi Hy. revert l2 i Hi Hy. induction l1 as [|a l1 IH]; intros [|b l2] [|i] H1 H2; try discriminate; cbn in *.
      - injection H1 as ->. injection H2 as ->. now left.
      - right. eapply IH; eauto. }
    intros F0. assert (In (x, y) (filter f (List.combine l1 l2))) as G.
    { apply filter_In. split; [exact I|]. unfold f. cbn [fst snd]. destruct (Z.eqb_spec x (-1)); [contradiction|reflexivity]. }
    rewrite F0 in G. destruct G. }
  eexists. split; [reflexivity|].
  match goal with |- context [if ?b then _ else _] => destruct b end; intros G; apply map_eq_nil in G; contradiction.
Qed.

(** what the spacing penalty needs of the strip *)
Definition strip_fits (st : strip) (n : nat) : Prop :=
  forall b, In b (s_boundaries st) -> (fst b < n)%nat /\ (snd b < n)%nat /\ exists w, lookup (s_weights st) b = Ok w.

Lemma spacing_total (sp : bool) md st (pdl : list (option (list Z))) n :
  strip_fits st (length pdl) ->
  (forall r, In (Some r) pdl -> length r = n /\ plies_of r <> []) ->
  exists p, calc_penalty_spacing sp md st None pdl None = Ok p.
Proof.
  intros Hst Hr. unfold calc_penalty_spacing. destruct sp; cbn [negb]; [|eauto].
  unfold strip_fits in Hst. induction (s_boundaries st) as [|b bs IH]; cbn [sum_boundaries]; [eauto|].
  assert (exists p, boundary_penalty st md (repeat [] (length pdl)) pdl (repeat [] (length pdl)) b = Ok p) as (p & ->).
  { destruct (Hst b ltac:(now left)) as (B1 & B2 & w & Hw). unfold boundary_penalty.
    rewrite (row_ok pdl (fst b) None B1), (row_ok pdl (snd b) None B2). cbn [bind].
    pose proof (nth_In pdl None B1) as I1. pose proof (nth_In pdl None B2) as I2.
    destruct (nth (fst b) pdl None) as [l1|]; [|eauto]. destruct (nth (snd b) pdl None) as [l2|]; [|eauto].
    destruct (Hr l1 I1) as (L1 & P1). destruct (Hr l2 I2) as (L2 & P2).
    destruct (_ || _)%bool; [eauto|].
    rewrite !(row_ok (repeat [] (length pdl)) _ []) by (rewrite repeat_length; assumption). cbn [bind].
    assert (Nn : forall i, nth i (repeat (@nil Z) (length pdl)) [] = []) by (intros; apply nth_repeat).
    rewrite !Nn, !app_nil_r. cbn [app].
    destruct (boundary_line_total l1 l2) as (line & -> & Hline); [lia| |].
    { destruct (plies_of l1) as [|x t] eqn:E; [congruence|]. exists x. assert (I : In x (plies_of l1)) by (rewrite E; now left).
      apply filter_In in I. destruct I as (I & N). split; [exact I|]. unfold dropped in N. destruct (Z.eqb_spec x (-1)); [discriminate|assumption]. }
    cbn [bind]. rewrite Hw. cbn [bind]. destruct (spacing_1ss_total line md Hline) as (p & ->). cbn [bind]. eauto. }
  cbn [bind]. destruct IH as (s & ->); [intros; apply Hst; now right|]. cbn [bind]. eauto.
Qed.

(* ------------------------------------------------------------------ *)
(** ** ply counts, penalties and objectives *)
Lemma ind_angle_total set a : In a set -> exists i, ind_angle set a = Some i /\ (i < length set)%nat.
Proof.
  intros H. unfold ind_angle. destruct ((a =? -90) && memb 90 set)%bool eqn:E.
  - apply andb_true_iff in E. destruct E as (_ & E). apply memb_true in E. destruct (index_of_in _ _ E) as (i & Hi).
    exists i. split; [exact Hi|]. apply index_of_some in Hi. apply Hi.
  - destruct (index_of_in _ _ H) as (i & Hi). exists i. split; [exact Hi|]. apply index_of_some in Hi. apply Hi.
Qed.
Lemma sumQ_upd i x l : (i < length l)%nat -> (sumQ (upd i (nth i l 0 + x) l) == sumQ l + x)%Q.
Proof.
  revert i. induction l as [|y l IH]; intros [|i] H; cbn in H; try lia; cbn [upd nth sumQ fold_right].
  - ring.
  - change (fold_right Qplus 0%Q ?z) with (sumQ z). rewrite IH by lia. ring.
Qed.
Lemma unit_counts_total c a counts x : In a (set_of_angles c) -> length counts = length (set_of_angles c) ->
  exists r, unit_counts c a counts x = Ok r /\ length r = length (set_of_angles c) /\ (sumQ r == sumQ counts + x)%Q.
Proof.
  intros H L. unfold unit_counts. destruct (ind_angle_total _ _ H) as (i & -> & Hi).
  eexists. split; [reflexivity|]. split; [now rewrite upd_length|]. apply sumQ_upd. lia.
Qed.
Lemma count_plies_total c ss : forall counts, (forall a, In a ss -> In a (set_of_angles c)) -> length counts = length (set_of_angles c) ->
  exists r, count_plies c ss counts = Ok r /\ length r = length (set_of_angles c) /\ (sumQ r == sumQ counts + inject_Z (zlen ss))%Q.
Proof.
  induction ss as [|a ss IH]; intros counts H L; cbn [count_plies].
  - eexists. split; [reflexivity|]. split; [exact L|]. unfold zlen. cbn. ring.
  - destruct (unit_counts_total c a counts 1 (H a ltac:(now left)) L) as (r & -> & Lr & Sr). cbn [bind].
    destruct (IH r ltac:(intros; apply H; now right) Lr) as (r' & -> & Lr' & Sr'). eexists. split; [reflexivity|]. split; [exact Lr'|].
    rewrite Sr', Sr, zlen_cons, inject_Z_plus. ring.
Qed.

Lemma breaks_contig_total c ss : (contig c = true -> (2 <= n_contig c <= 6)%nat) -> exists b, breaks_contig c ss = Ok b.
Proof.
  intros H. unfold breaks_contig. destruct (contig c); [|eauto].
  destruct (calc_penalty_contig_ss_spec ss c (H eq_refl)) as (n & -> & _). cbn [bind]. eauto.
Qed.
Lemma trim_nonempty (ss : list Z) : (3 <= length ss)%nat -> trim ss <> [].
Proof.
  intros H E. destruct ss as [|x [|y [|z ss]]]; cbn in H; try lia. unfold trim in E. cbn in E. discriminate.
Qed.
Lemma diso_total c ss : Forall angle_ok ss -> (3 <= length ss)%nat -> exists n, calc_n_penalty_diso_ss ss c = Ok n.
Proof.
  intros H L. destruct (calc_n_penalty_diso_ss_spec ss c H) as (n & -> & _); [|eauto].
  unfold dt_trim. destruct (_ && _)%bool; [now apply trim_nonempty|]. destruct ss; [cbn in L; lia|discriminate].
Qed.
Lemma getQ_total pc c a : In a (set_of_angles c) -> length pc = length (set_of_angles c) -> exists q, getQ pc c a = Ok q.
Proof.
  intros H L. unfold getQ. destruct (index_of_in _ _ H) as (i & Ei). rewrite Ei. apply index_of_some in Ei. destruct Ei as (Li & _).
  destruct (nth_error pc i) eqn:E; [eauto|]. apply nth_error_None in E. lia.
Qed.
Lemma breaks_10_total c dist lp counts : good_angles (rule_10_percent c) (set_of_angles c) ->
  length counts = length (set_of_angles c) -> (0 < sumQ counts)%Q -> exists b, breaks_10 c dist lp counts = Ok b.
Proof.
  intros G L P. unfold breaks_10. destruct (rule_10_percent c); [|eexists; reflexivity]. destruct (rule_10_Abdalla c); [eexists; reflexivity|].
  destruct G as (_ & _ & _ & _ & G). destruct (G eq_refl) as (G0 & G45 & G90 & G135).
  unfold calc_penalty_10_pc. destruct (Constraints.Qltb 0 (percent_tot c)); [|eexists; reflexivity].
  destruct (Qeq_bool (sumQ counts) 0) eqn:E; [apply Qeq_bool_iff in E; lra|].
  destruct (getQ_total counts c 0 G0 L) as (q0 & ->). destruct (getQ_total counts c 45 G45 L) as (q1 & ->).
  destruct (getQ_total counts c 90 G90 L) as (q2 & ->). destruct (getQ_total counts c (-45) G135 L) as (q3 & ->).
  eexists; reflexivity.
Qed.

Lemma sum_panels_total objs p cf : forall ws ind acc, (ind + length ws <= length objs)%nat ->
  (forall j w, (j < length objs)%nat -> exists q, panel_term objs p cf j w = Ok q) -> exists q, sum_panels objs p cf ind ws acc = Ok q.
Proof.
  induction ws as [|w ws IH]; intros ind acc L H; cbn [sum_panels]; [eauto|]. cbn [length] in L.
  destruct (H ind w ltac:(lia)) as (q & ->). cbn [bind]. apply IH; [lia|exact H].
Qed.

(** the objectives are computable: one target, one list of weightings and one weight per panel,
    all with as many entries as there are lamination parameters *)
Record fits (D n : nat) (lampam : list Z -> list Q) (targets weights : list (list Q)) (panel_weightings : list Q) : Prop := {
  f_lampam : forall s, length (lampam s) = D;
  f_targets : length targets = n /\ forall t, In t targets -> length t = D;
  f_weights : length weights = n /\ forall t, In t weights -> length t = D;
  f_panels : (length panel_weightings <= n)%nat }.

Lemma row_at_some {A} (t : list A) i : (i < length t)%nat -> exists x, row_at (map Some t) (Z.of_nat i) = Ok x /\ In x t.
Proof.
  intros H. unfold row_at. rewrite map_length, py_index_nat by exact H. cbn [bind].
  destruct (nth_error t i) as [x|] eqn:E; [|apply nth_error_None in E; lia].
  rewrite (nth_error_nth (map Some t) i None (x := Some x)) by (rewrite nth_error_map, E; reflexivity).
  exists x. split; [reflexivity|]. eapply nth_error_In, E.
Qed.
Lemma row_at_is {A} (t : list (option A)) i x : (i < length t)%nat -> nth i t None = Some x -> row_at t (Z.of_nat i) = Ok x.
Proof. intros H E. unfold row_at. rewrite py_index_nat by exact H. cbn [bind]. now rewrite E. Qed.

Lemma objectives_total D n lampam targets weights pw pen i s objs :
  fits D n lampam targets weights pw -> (i < n)%nat -> length objs = n ->
  (forall objs' j w, length objs' = n -> (forall j, j <> i -> nth j objs' None = nth j objs None) -> (j < n)%nat -> exists q, panel_term objs' pen zero_coeffs j w = Ok q) ->
  exists o, objectives_of targets weights pw pen (Z.of_nat i) (lampam s) objs = Ok o /\
    length (fst o) = n /\ forall j, j <> i -> nth j (fst o) None = nth j objs None.
Proof.
  intros [F1 (F2 & F2') (F3 & F3') F4] Hi L P. unfold objectives_of, target_of, weight_of.
  destruct (row_at_some targets i) as (t & -> & It); [lia|]. cbn [bind].
  destruct (row_at_some weights i) as (w & -> & Iw); [lia|]. cbn [bind].
  unfold calc_obj_one_panel. rewrite F1, (F2' t It), (F3' w Iw), Nat.eqb_refl. cbn [andb bind].
  rewrite set_row_nat by lia. cbn [bind].
  match goal with |- context [upd i ?z objs] => set (objs' := upd i z objs) end.
  assert (N' : forall j, j <> i -> nth j objs' None = nth j objs None).
  { intros j Hj. unfold objs'. rewrite nth_upd. destruct (Nat.eqb_spec i j); [congruence|reflexivity]. }
  assert (L' : length objs' = n) by (unfold objs'; now rewrite upd_length).
  unfold calc_obj_multi_panel_nones.
  destruct (sum_panels_total objs' pen zero_coeffs pw 0 0%Q) as (q & ->); [lia| |].
  { intros j w0 Hj. apply P; [exact L'|exact N'|lia]. }
  cbn [bind]. eexists. split; [reflexivity|]. cbn [fst]. auto.
Qed.

(* ------------------------------------------------------------------ *)
(** ** thick to thin *)
Section ThinRuns.
Variable c : cons.
Variable st : strip.
Variable lampam : list Z -> list Q.
Variable dist : list Q -> Q.
Variables (targets weights : list (list Q)) (panel_weightings : list Q).
Variables (plies : list Z) (ref : nat) (pdl_ref : list Z) (D : nat).
Local Notation du := (drop_unit (sym c)).
Local Notation N := (n_max plies).
Hypothesis Hs : StronglySorted Z.lt plies.
Hypothesis Href : (ref < length plies)%nat.
Hypothesis Hpar : sym c = true -> forall i, (i < length plies)%nat -> Z.even (nth i plies 0) = Z.even (nth ref plies 0).
Hypothesis Hlen : length pdl_ref = N.
Hypothesis Hsym : sym c = true -> palindrome pdl_ref.
Hypothesis Hcnt : zlen (plies_of pdl_ref) = nth ref plies 0.
Hypothesis Hcons : consistent c.
Hypothesis Hcontig : contig c = true -> (2 <= n_contig c <= 6)%nat.
Hypothesis Hset : forall a, In a (plies_of pdl_ref) -> In a (set_of_angles c).
Hypothesis Hthin : 3 <= nth 0 plies 0.
Hypothesis Hst : strip_fits st (length plies).
Hypothesis Hfit : fits D (length plies) lampam targets weights panel_weightings.
(** some property of the lamination parameters of mirrored stacks *)
Variable G : list Q -> Prop.
Hypothesis HG : forall s, (sym c = true -> palindrome s) -> (forall a, In a s -> In a (set_of_angles c)) -> G (lampam s).

Definition designed (k j : nat) : Prop := j = ref \/ ((j < ref)%nat /\ left_at c plies ref k < nth (S j) plies 0).
Definition rows_good (x : layout) : Prop :=
  forall r, In (Some r) (l_pdl x) -> length r = N /\ 3 <= zlen (plies_of r) /\ (forall a, In a (plies_of r) -> In a (set_of_angles c)).
Definition Jr (k : nat) (x : layout) : Prop := thin_inv c lampam dist plies ref pdl_ref k x /\ rows_good x.
Definition Kr (k : nat) (v : values_of) : Prop :=
  length (v_counts v) = length plies /\ length (v_lampam v) = length plies /\ length (v_diso v) = length plies /\ length (v_objs v) = length plies /\
  (forall j, designed k j -> exists cnt, nth j (v_counts v) None = Some cnt /\ length cnt = length (set_of_angles c) /\
      (sumQ cnt == inject_Z (Z.max (nth j plies 0) (left_at c plies ref k))%Z)%Q) /\
  (forall j, (j < ref)%nat -> designed k j -> exists lp, nth j (v_lampam v) None = Some lp /\ length lp = D /\ G lp) /\
  (forall j, nth j (v_objs v) None <> None -> nth j (v_diso v) None <> None).

Lemma MOr : forall a e, (a < e < length plies)%nat -> nth a plies 0 + du <= nth e plies 0.
Proof. exact (mono (sym c) plies ref Hs Href Hpar). Qed.
Lemma MLr : forall a e, (a <= e < length plies)%nat -> nth a plies 0 <= nth e plies 0.
Proof. intros a e H. destruct (Nat.eq_dec a e) as [->|]; [lia|]. pose proof (MOr a e ltac:(lia)). unfold drop_unit in *. destruct (sym c); lia. Qed.
Lemma du_pos : 0 < du.
Proof. unfold drop_unit. destruct (sym c); lia. Qed.

(** the panel being designed and its source *)
Definition src (s : step) (i : nat) : nat := if s_new s then S i else i.
Lemma src_row {A} (t : list (option A)) s i : s_panel s = Z.of_nat i ->
  (if s_new s then row_at t (s_panel s + 1) else row_at t (s_panel s)) = row_at t (Z.of_nat (src s i)).
Proof. intros ->. unfold src. destruct (s_new s); [|reflexivity]. f_equal. lia. Qed.

Section Step.
Variables (k : nat) (s : step) (i : nat).
Hypothesis S0 : (i < ref)%nat.
Hypothesis S1 : s_panel s = Z.of_nat i.
Hypothesis S3 : s_before s = nth ref plies 0 - du * Z.of_nat k.
Hypothesis S4 : s_after s = s_before s - du.
Hypothesis S5 : nth i plies 0 <= s_after s.
Hypothesis S6 : s_before s <= nth (S i) plies 0.
Hypothesis S7 : s_new s = true <-> s_before s = nth (S i) plies 0.

Lemma src_facts : designed k (src s i) /\ (src s i < length plies)%nat /\ nth (src s i) plies 0 <= left_at c plies ref k /\
  ((src s i < ref)%nat -> left_at c plies ref k < nth (S (src s i)) plies 0).
Proof.
  assert (E : s_before s = left_at c plies ref k) by (unfold left_at; exact S3). pose proof du_pos as Hd. unfold src, designed.
  destruct (s_new s) eqn:W.
  - assert (Eb : s_before s = nth (S i) plies 0) by (apply S7; reflexivity). rewrite <- E. split; [|split; [lia|split; [lia|]]].
    + destruct (Nat.eq_dec (S i) ref) as [X|X]; [now left|]. right. split; [lia|]. pose proof (MOr (S i) (S (S i)) ltac:(lia)). lia.
    + intros Y. pose proof (MOr (S i) (S (S i)) ltac:(lia)). lia.
  - assert (Eb : s_before s < nth (S i) plies 0) by (assert (s_before s <> nth (S i) plies 0) by (intros X; apply S7 in X; discriminate); lia).
    rewrite <- E. split; [right; split; [exact S0|exact Eb]|]. split; [lia|]. split; [lia|auto].
Qed.
Lemma designed_next j : designed (S k) j -> j <> i -> designed k j /\ (i < j)%nat.
Proof.
  assert (E : s_before s = left_at c plies ref k) by (unfold left_at; exact S3). pose proof du_pos as Hd.
  intros [->|(A & B)] Nj; [split; [now left|exact S0]|].
  assert (B' : left_at c plies ref (S k) = left_at c plies ref k - du) by (unfold left_at; lia).
  assert (i < j)%nat. { destruct (le_lt_dec j i); [|lia]. pose proof (MLr (S j) i ltac:(lia)). lia. }
  split; [|assumption]. right. split; [exact A|]. pose proof (MOr (S i) (S j) ltac:(lia)). lia.
Qed.
Lemma max_next j : (i < j < length plies)%nat ->
  Z.max (nth j plies 0) (left_at c plies ref (S k)) = Z.max (nth j plies 0) (left_at c plies ref k).
Proof.
  intros H. assert (E : s_before s = left_at c plies ref k) by (unfold left_at; exact S3). pose proof du_pos as Hd.
  assert (B' : left_at c plies ref (S k) = left_at c plies ref k - du) by (unfold left_at; lia).
  pose proof (MLr (S i) j ltac:(lia)). lia.
Qed.

Lemma source_of x : Jr k x -> exists r, nth (src s i) (l_pdl x) None = Some r /\ fit c plies pdl_ref (l_used x) r /\ zlen (plies_of r) = left_at c plies ref k /\ length (l_pdl x) = length plies.
Proof.
  intros ((L & R & Gd & (j0 & r0 & J1 & J2 & J3 & J4 & J5 & J6 & J7)) & _). destruct src_facts as (A & B & C & E).
  assert (j0 = src s i) as <-.
  { destruct (lt_eq_lt_dec j0 (src s i)) as [[X|X]|X]; [|exact X|].
    - destruct (Nat.eq_dec j0 ref) as [Y|Y]; [destruct A; lia|]. specialize (J3 ltac:(lia)). pose proof (MLr (S j0) (src s i) ltac:(lia)). lia.
    - specialize (E ltac:(lia)). pose proof (MLr (S (src s i)) j0 ltac:(lia)). lia. }
  eauto.
Qed.

(** one candidate *)
Section Child.
Variables (m : node) (q : nat) (r : list Z).
Hypothesis HJ : Jr k (fst m).
Hypothesis HK : Kr k (snd m).
Hypothesis Rr : nth (src s i) (l_pdl (fst m)) None = Some r.
Hypothesis Rf : fit c plies pdl_ref (l_used (fst m)) r.
Hypothesis Rz : zlen (plies_of r) = left_at c plies ref k.
Hypothesis Rl : length (l_pdl (fst m)) = length plies.
Hypothesis Qh : (q < half c plies)%nat.
Hypothesis Qu : ~ In q (l_used (fst m)).
Hypothesis Qc : covering c = true -> (n_covering c <= q < N - n_covering c)%nat.

Local Notation r2 := (drop_pair c plies q r).
Lemma child_row : length r2 = N /\ zlen (plies_of r2) = left_at c plies ref (S k) /\ 3 <= zlen (plies_of r2) /\
  (forall a, In a (plies_of r2) -> In a (set_of_angles c)).
Proof.
  pose proof (drop_fit c plies pdl_ref _ r q Rf Qh Qu Qc) as (F1 & _).
  pose proof (drop_zlen c plies pdl_ref _ r q Rf Qh Qu) as Z2.
  assert (B' : left_at c plies ref (S k) = left_at c plies ref k - du) by (unfold left_at; lia).
  assert (E : s_before s = left_at c plies ref k) by (unfold left_at; exact S3).
  split; [exact F1|]. split; [lia|]. split; [pose proof (MLr 0 i ltac:(lia)); lia|].
  intros a Ha. destruct HJ as (_ & Hg). destruct (src_facts) as (_ & Ls & _).
  assert (In (Some r) (l_pdl (fst m))) as Ir by (rewrite <- Rr; apply nth_In; lia).
  destruct (Hg r Ir) as (_ & _ & Hin). apply Hin.
  pose proof (drop_drops c plies r q) as Dr. clear - Ha Dr. unfold plies_of in *. apply filter_In in Ha. destruct Ha as (Ha & Na).
  apply filter_In. split; [|exact Na]. induction Dr as [|x y l l' E _ IH]; [destruct Ha|]. destruct Ha as [<-|Ha]; [|right; auto].
  destruct E as [->|E]; [now left|]. rewrite E in Na. discriminate.
Qed.
Lemma row_drop : (q < length r)%nat /\ In (nth q pdl_ref 0) (set_of_angles c) /\ (q < length pdl_ref)%nat.
Proof.
  destruct (kept_here c plies pdl_ref _ r q Rf Qh Qu) as (A & B & C). pose proof Rf as (L & _).
  split; [exact A|]. split; [|lia]. apply Hset. unfold plies_of. apply filter_In. split; [apply nth_In; lia|].
  rewrite <- C. unfold dropped. destruct (Z.eqb_spec (nth q r 0) (-1)); [contradiction|reflexivity].
Qed.
Lemma new_rows : forall t, In (Some t) (upd i (Some r2) (l_pdl (fst m))) ->
  length t = N /\ 3 <= zlen (plies_of t) /\ (forall a, In a (plies_of t) -> In a (set_of_angles c)).
Proof.
  intros t Ht. destruct (In_nth _ _ None Ht) as (j & Lj & Ej). rewrite upd_length in Lj. rewrite nth_upd in Ej.
  destruct (Nat.eqb_spec i j) as [<-|Nj].
  - destruct (Nat.ltb_spec i (length (l_pdl (fst m)))); [|lia]. cbn [andb] in Ej. injection Ej as <-.
    destruct child_row as (A & _ & B & C). auto.
  - destruct HJ as (_ & Hg). apply Hg. cbn [andb] in Ej. rewrite <- Ej. apply nth_In. exact Lj.
Qed.

Lemma child_total : exists o, thin_child c st plies pdl_ref s m q = Ok o.
Proof.
  unfold thin_child. destruct row_drop as (Lq & _ & Lp).
  assert (exists a, (if bal c then match nth_error pdl_ref q with Some a => Ok a | None => Err IndexError end else Ok 0) = Ok a) as (a & ->).
  { destruct (bal c); [|eauto]. destruct (nth_error pdl_ref q) eqn:E; [eauto|apply nth_error_None in E; lia]. }
  cbn [bind]. destruct (_ && _)%bool; [eauto|].
  rewrite (src_row _ s i S1). destruct src_facts as (_ & Ls & _).
  rewrite (row_at_is (l_pdl (fst m)) (src s i) r ltac:(lia) Rr). cbn [bind].
  unfold drop_at at 1. destruct (Nat.ltb_spec q (length r)); [|lia]. cbn [bind].
  assert (exists row2, (if sym c then drop_at (N - q - 1) (upd q (-1) r) else Ok (upd q (-1) r)) = Ok row2 /\ row2 = r2) as (row2 & -> & ->).
  { unfold drop_pair. destruct (sym c); [|eauto]. unfold drop_at. rewrite upd_length. pose proof Rf as (Lr & _).
    destruct (Nat.ltb_spec (N - q - 1) (length r)); [eauto|lia]. }
  cbn [bind]. rewrite S1, set_row_nat by lia. cbn [bind].
  unfold spacing_of. destruct (spacing_total (pdl_spacing c) (min_drop c) st (upd i (Some r2) (l_pdl (fst m))) N) as (p & ->).
  - rewrite upd_length, Rl. exact Hst.
  - intros t Ht. destruct (new_rows t Ht) as (A & B & _). split; [exact A|]. intros E. rewrite E in B. unfold zlen in B. cbn in B. lia.
  - cbn [bind]. eauto.
Qed.

Lemma evaluate_total x : l_pdl x = upd i (Some r2) (l_pdl (fst m)) -> l_last x = q ->
  exists o, thin_evaluate c lampam dist targets weights panel_weightings plies pdl_ref s m x = Ok o /\
    forall v, o = Some v -> Kr (S k) v.
Proof.
  intros Ex El. unfold thin_evaluate. cbv zeta.
  destruct HK as (K1 & K2 & K3 & K4 & K5 & K6 & K7). destruct child_row as (C1 & C2 & C3 & C4).
  destruct row_drop as (Lq & Aq & Lp). destruct src_facts as (Sd & Sl & Sle & Slt).
  assert (Ri : nth i (l_pdl x) None = Some r2).
  { rewrite Ex, nth_upd, Nat.eqb_refl. destruct (Nat.ltb_spec i (length (l_pdl (fst m)))); [reflexivity|lia]. }
  rewrite S1. rewrite (row_at_is (l_pdl x) i r2) by (rewrite ?Ex, ?upd_length; first [lia|rewrite <- Ex; exact Ri]). cbn [bind].
  rewrite <- S1, (src_row _ s i S1), S1. destruct (K5 _ Sd) as (base & Eb & Lb & Sb).
  rewrite (row_at_is (v_counts (snd m)) (src s i) base ltac:(lia) Eb). cbn [bind].
  rewrite El. assert (Enth : nth_error pdl_ref q = Some (nth q pdl_ref 0)) by (apply nth_error_nth'; exact Lp). rewrite Enth. cbn [bind].
  destruct (unit_counts_total c (nth q pdl_ref 0) base (-1) Aq Lb) as (c1 & -> & L1 & S1'). cbn [bind].
  assert (exists c2, (if (sym c && negb (Nat.eqb (N - q - 1) q))%bool then unit_counts c (nth q pdl_ref 0) c1 (-1) else Ok c1) = Ok c2 /\
     length c2 = length (set_of_angles c) /\ (sumQ c2 == inject_Z (left_at c plies ref (S k))%Z)%Q) as (c2 & -> & L2 & S2).
  { assert (Em : Z.max (nth (src s i) plies 0) (left_at c plies ref k) = left_at c plies ref k) by lia. rewrite Em in Sb.
    assert (B' : left_at c plies ref (S k) = left_at c plies ref k + (- du)) by (unfold left_at; lia). rewrite B', inject_Z_plus.
    destruct (sym c) eqn:Y; cbn [andb].
    - pose proof (half_mirror c plies q Y Qh) as Hm. destruct (Nat.eqb_spec (N - q - 1) q); [lia|]. cbn [negb].
      destruct (unit_counts_total c (nth q pdl_ref 0) c1 (-1) Aq L1) as (c2 & -> & L2 & S2). exists c2. split; [reflexivity|]. split; [exact L2|].
      rewrite S2, S1', Sb. unfold drop_unit. change (inject_Z (- (2))) with (-2)%Q. ring.
    - exists c1. split; [reflexivity|]. split; [exact L1|]. rewrite S1', Sb. unfold drop_unit. change (inject_Z (- (1))) with (-1)%Q. ring. }
  cbn [bind]. rewrite set_row_nat by lia. cbn [bind].
  assert (Fa : Forall angle_ok (plies_of r2)).
  { destruct (k_set c Hcons) as (_ & Fs & _). rewrite Forall_forall in Fs. apply Forall_forall. intros a Ha. apply Fs, C4, Ha. }
  rewrite kept_plies.
  assert (exists d, (if diso c then calc_n_penalty_diso_ss (plies_of r2) c else Ok 0) = Ok d) as (d & ->).
  { destruct (diso c); [|eauto]. apply diso_total; [exact Fa|]. unfold zlen in C3. lia. }
  cbn [bind]. rewrite set_row_nat by lia. cbn [bind].
  destruct (breaks_contig_total c (plies_of r2) Hcontig) as (bc & ->). cbn [bind].
  destruct bc; [eexists; split; [reflexivity|discriminate]|].
  rewrite set_row_nat by lia. cbn [bind].
  destruct (breaks_10_total c dist (lampam (plies_of r2)) c2 (k_set c Hcons) L2) as (bt & ->).
  { rewrite S2, <- C2. change 0%Q with (inject_Z 0). rewrite <- Zlt_Qlt. lia. }
  cbn [bind]. destruct bt; [eexists; split; [reflexivity|discriminate]|].
  set (dis := upd i (Some (inject_Z d)) (v_diso (snd m))).
  assert (Hdis : forall j, nth j (v_objs (snd m)) None <> None \/ j = i -> exists y, nth_error dis j = Some (Some y)).
  { intros j Hj. assert (Lj : (j < length plies)%nat).
    { destruct Hj as [Hj|Hj]; [|lia]. destruct (le_lt_dec (length plies) j); [|assumption]. rewrite nth_overflow in Hj by lia. congruence. }
    assert (nth_error dis j = Some (nth j dis None)) as -> by (apply nth_error_nth'; unfold dis; rewrite upd_length; lia).
    unfold dis. rewrite nth_upd. destruct (Nat.eqb_spec i j) as [->|Nj].
    - destruct (Nat.ltb_spec j (length (v_diso (snd m)))); [|lia]. cbn [andb]. eauto.
    - cbn [andb]. destruct Hj as [Hj|Hj]; [|congruence]. apply K7 in Hj. destruct (nth j (v_diso (snd m)) None) as [y|]; [eauto|congruence]. }
  destruct (objectives_total D (length plies) lampam targets weights panel_weightings (penalty_list dis) i (plies_of r2) (v_objs (snd m)) Hfit ltac:(lia) K4) as (o & -> & Lo & No).
  { intros objs' j w L' N' Hj. unfold panel_term.
    assert (nth_error objs' j = Some (nth j objs' None)) as -> by (apply nth_error_nth'; lia).
    destruct (nth j objs' None) as [ob|] eqn:Eo; [|eauto].
    assert (exists y, nth_error dis j = Some (Some y)) as (y & Ey).
    { apply Hdis. destruct (Nat.eq_dec j i) as [->|Nj]; [now right|]. left. rewrite <- (N' j Nj), Eo. discriminate. }
    cbn [penalty_list p_diso p_contig p_10 p_bal_ipo p_oopo p_weight panel_factor panel_factor_indexed entry].
    assert (Ld : length dis = length plies) by (unfold dis; rewrite upd_length; exact K3).
    destruct (Nat.ltb_spec 1 (length dis)); [|lia]. rewrite Ey. cbn [bind]. eauto. }
  cbn [bind]. eexists. split; [reflexivity|]. intros v [= <-].
  assert (Bk : left_at c plies ref (S k) = left_at c plies ref k - du) by (unfold left_at; lia).
  assert (Ebf : s_before s = left_at c plies ref k) by (unfold left_at; exact S3).
  unfold Kr. cbn [v_counts v_lampam v_diso v_objs]. rewrite !upd_length. fold dis. unfold dis at 1. rewrite upd_length.
  split; [exact K1|]. split; [exact K2|]. split; [exact K3|]. split; [exact Lo|]. split; [|split].
  - intros j Hj. rewrite nth_upd. destruct (Nat.eqb_spec i j) as [<-|Nj].
    + destruct (Nat.ltb_spec i (length (v_counts (snd m)))); [|lia]. cbn [andb]. exists c2. split; [reflexivity|]. split; [exact L2|].
      rewrite S2. replace (Z.max (nth i plies 0) (left_at c plies ref (S k))) with (left_at c plies ref (S k)) by lia. reflexivity.
    + cbn [andb]. destruct (designed_next j Hj ltac:(congruence)) as (Dj & Lij). destruct (K5 j Dj) as (cnt & A1 & A2 & A3).
      exists cnt. split; [exact A1|]. split; [exact A2|]. rewrite A3, max_next; [reflexivity|]. destruct Dj as [->|(? & _)]; lia.
  - intros j Lj Hj. rewrite nth_upd. destruct (Nat.eqb_spec i j) as [<-|Nj].
    + destruct (Nat.ltb_spec i (length (v_lampam (snd m)))); [|lia]. cbn [andb]. eexists. split; [reflexivity|]. split; [apply (f_lampam _ _ _ _ _ _ Hfit)|].
      apply HG; [|exact C4]. intros Y. pose proof (drop_fit c plies pdl_ref _ r q Rf Qh Qu Qc) as (_ & _ & P & _). specialize (P Y).
      unfold palindrome, plies_of in *. rewrite P at 1. clear. induction r2 as [|y l IH]; [reflexivity|]. cbn [rev]. rewrite filter_app, IH. cbn [filter].
      destruct (negb (y =? dropped)); cbn [rev]; [reflexivity|now rewrite app_nil_r].
    + cbn [andb]. destruct (designed_next j Hj ltac:(congruence)) as (Dj & Lij). exact (K6 j Lj Dj).
  - intros j Hj. assert (exists y, nth_error dis j = Some (Some y)) as (y & Ey).
    { apply Hdis. destruct (Nat.eq_dec j i) as [->|Nj]; [now right|]. left. rewrite <- (No j Nj). exact Hj. }
    fold dis. rewrite (nth_error_nth dis j None Ey). discriminate.
Qed.
End Child.

Lemma thin_positions_total : exists ps, thin_positions c plies = Ok ps.
Proof.
  unfold thin_positions. destruct (covering c) eqn:E; [|eauto]. pose proof (k_cover c Hcons E). pose proof (k_ncover c Hcons).
  destruct (Nat.eqb_spec (n_covering c) 1); [eauto|]. destruct (Nat.eqb_spec (n_covering c) 2); [eauto|lia].
Qed.

Hypothesis Tr : thin_row (sym c) plies ref k s.
Lemma thin_runs_step :
  runs (thin_branch c st plies pdl_ref) (thin_evaluate c lampam dist targets weights panel_weightings plies pdl_ref) Jr Kr k s /\
  inherits (thin_branch c st plies pdl_ref) (thin_evaluate c lampam dist targets weights panel_weightings plies pdl_ref) Jr Kr k s.
Proof.
  assert (Row : forall m, Jr k (fst m) -> Kr k (snd m) -> forall ps q, thin_positions c plies = Ok ps ->
     In q (filter (fun z => negb (existsb (Nat.eqb z) (l_used (fst m)))) ps) ->
     (exists o, thin_child c st plies pdl_ref s m q = Ok o) /\
     forall x, thin_child c st plies pdl_ref s m q = Ok (Some x) ->
       rows_good x /\ exists o, thin_evaluate c lampam dist targets weights panel_weightings plies pdl_ref s m x = Ok o /\ forall v, o = Some v -> Kr (S k) v).
  { intros m HJ HK ps q Ep Hq. apply filter_In in Hq. destruct Hq as (Hq & Hu). apply not_used in Hu.
    destruct (thin_positions_in c plies ps q Ep Hq) as (Hh & Hc).
    destruct (source_of (fst m) HJ) as (r & Rr & Rf & Rz & Rl).
    split; [eapply child_total; eauto|].
    intros x Hx. destruct (thin_child_ok c st plies pdl_ref s m q x Hx) as (row & row2 & Er & E2 & Es & Eu & El & _).
    rewrite (src_row _ s i S1) in Er. destruct src_facts as (_ & Ls & _). assert (Ls' : (src s i < length (l_pdl (fst m)))%nat) by lia. rewrite (row_at_is (l_pdl (fst m)) (src s i) r Ls' Rr) in Er. injection Er as <-.
    rewrite S1, set_row_nat in Es by lia. injection Es as Es. subst row2.
    split.
    - unfold rows_good. rewrite <- Es. eapply new_rows; eauto.
    - eapply evaluate_total; eauto. }
  assert (Br : forall m l x, thin_branch c st plies pdl_ref k s m = Ok l -> In x l -> exists ps q, thin_positions c plies = Ok ps /\
     In q (filter (fun z => negb (existsb (Nat.eqb z) (l_used (fst m)))) ps) /\ thin_child c st plies pdl_ref s m q = Ok (Some x)).
  { intros m l x Hb Hx. unfold thin_branch in Hb. destruct thin_positions_total as (ps & Ep). rewrite Ep in Hb. cbn [bind] in Hb.
    destruct (children_in _ _ _ _ Hb Hx) as (q & Hq & Hc). eauto. }
  split.
  - intros m HJ HK. destruct thin_positions_total as (ps & Ep).
    assert (exists l, thin_branch c st plies pdl_ref k s m = Ok l) as (l & El).
    { unfold thin_branch. rewrite Ep. cbn [bind]. apply children_total. intros q Hq. apply (Row m HJ HK ps q Ep Hq). }
    exists l. split; [exact El|]. intros x Hx. destruct (Br m l x El Hx) as (ps' & q & Ep' & Hq & Hc).
    destruct (Row m HJ HK ps' q Ep' Hq) as (_ & H2). destruct (H2 x Hc) as (_ & o & Eo & _). eauto.
  - intros m l x v HJ HK Hb Hx He. destruct (Br m l x Hb Hx) as (ps' & q & Ep' & Hq & Hc).
    destruct (Row m HJ HK ps' q Ep' Hq) as (_ & H2). destruct (H2 x Hc) as (Rg & o & Eo & Ho).
    rewrite He in Eo. injection Eo as <-. split; [|apply Ho; reflexivity]. split; [|exact Rg].
    destruct (thin_inherits c st lampam dist targets weights panel_weightings plies ref pdl_ref Hs Href Hpar k s Tr m l x v (proj1 HJ) Logic.I Hb Hx He) as (T & _). exact T.
Qed.
End Step.

(** two lists of lamination parameters always share an entry *)
Hypothesis HGE : forall lp lp', G lp -> G lp' -> length lp = D -> length lp' = D -> exists i, (i < D)%nat /\ (nth i lp 0 == nth i lp' 0)%Q.

Lemma nth_nones {A} j : nth j (@nones plies A) None = None.
Proof. unfold nones. destruct (le_lt_dec (length plies) j); [apply nth_overflow; rewrite repeat_length; lia|apply nth_repeat]. Qed.
Lemma designed_0 j : designed 0 j -> j = ref.
Proof.
  intros [E|(A & B)]; [exact E|]. exfalso. unfold left_at in B. rewrite Z.mul_0_r, Z.sub_0_r in B.
  pose proof (MLr (S j) ref ltac:(lia)). lia.
Qed.
Lemma start_total lp : exists m, thin_start c plies ref pdl_ref (plies_of pdl_ref) lp = Ok m /\ Jr 0 (fst m) /\ Kr 0 (snd m).
Proof.
  unfold thin_start.
  destruct (count_plies_total c (plies_of pdl_ref) (repeat 0%Q (length (set_of_angles c))) Hset (repeat_length _ _)) as (cnt & E & Lc & Sc).
  assert (S0 : (sumQ (repeat 0%Q (length (set_of_angles c))) == 0)%Q) by (clear; induction (length (set_of_angles c)) as [|n IH]; cbn; [reflexivity|rewrite IH; reflexivity]).
  rewrite E. cbn [bind]. eexists. split; [reflexivity|]. split; [split|].
  - eapply (thin_start_inv c lampam dist plies ref pdl_ref Hs Href Hpar Hlen Hsym Hcnt (plies_of pdl_ref) lp). unfold thin_start. rewrite E. reflexivity.
  - intros r Hr. cbn [fst l_pdl] in Hr. destruct (In_nth _ _ None Hr) as (j & Lj & Ej). rewrite nth_upd in Ej.
    destruct (Nat.eqb ref j && Nat.ltb ref (length (nones plies)))%bool; [|rewrite nth_nones in Ej; discriminate].
    injection Ej as <-. split; [exact Hlen|]. split; [|exact Hset]. rewrite Hcnt. pose proof (MLr 0 ref ltac:(lia)). lia.
  - unfold Kr, only. cbn [snd v_counts v_lampam v_diso v_objs]. rewrite !upd_length. unfold nones at 1 2 3 4. rewrite !repeat_length.
    repeat (split; [reflexivity|]). split; [|split].
    + intros j Hj. apply designed_0 in Hj. subst j. rewrite nth_upd, Nat.eqb_refl. unfold nones. rewrite repeat_length.
      destruct (Nat.ltb_spec ref (length plies)); [|lia]. cbn [andb]. exists cnt. split; [reflexivity|]. split; [exact Lc|].
      rewrite Sc, S0, Hcnt. unfold left_at. rewrite Z.mul_0_r, Z.sub_0_r, Z.max_id. ring.
    + intros j Lj Hj. apply designed_0 in Hj. lia.
    + intros j Hj. rewrite nth_nones in Hj. congruence.
Qed.

Lemma replace_rows_total {A} n : forall (news : list (option A)) t, (n <= length t)%nat -> (forall j, (j < n)%nat -> nth j news None <> None) ->
  exists t', replace_rows n news t = Ok t'.
Proof using. clear.
  induction n as [|n IH]; intros news t L H; cbn [replace_rows]; [eauto|].
  destruct t as [|x t]; [cbn in L; lia|]. pose proof (H 0%nat ltac:(lia)) as H0. destruct news as [|[y|] news]; cbn in H0; try congruence.
  destruct (IH news t) as (r & ->); [cbn in L; lia|intros j Hj; apply (H (S j)); lia|]. cbn [bind]. eauto.
Qed.

Lemma mirror_okay n l : palindrome l -> (n <= length l)%nat -> mirror_ok n l = true.
Proof using. clear.
  intros P L. unfold mirror_ok. apply forallb_forall. intros i Hi. apply in_seq in Hi. apply Z.eqb_eq.
  unfold palindrome in P. rewrite P at 1. rewrite rev_nth by lia. f_equal. lia.
Qed.
Lemma pal_plies l : palindrome l -> palindrome (plies_of l).
Proof using. clear.
  intros P. unfold palindrome, plies_of in *. rewrite P at 1. clear. induction l as [|y l IH]; [reflexivity|]. cbn [rev]. rewrite filter_app, IH. cbn [filter].
  destruct (negb (y =? dropped)); cbn [rev]; [reflexivity|now rewrite app_nil_r].
Qed.

Lemma combine_nth_in {A B} (l : list A) (l' : list B) i x y : nth_error l i = Some x -> nth_error l' i = Some y -> In (x, y) (List.combine l l').
Proof using. clear.
  revert l' i. induction l as [|a l IH]; intros [|b l'] [|i] H1 H2; try discriminate; cbn in *.
  - injection H1 as ->. injection H2 as ->. now left.
  - right. eapply IH; eauto.
Qed.

Lemma thin_total local_limit global_limit table sst lps ss :
  thin_table (sym c) plies ref = Ok table -> nth_error sst ref = Some pdl_ref -> nth_error ss ref = Some (plies_of pdl_ref) ->
  length sst = length plies -> length lps = length plies -> length ss = length plies ->
  exists done sst' lps' ss', repair_thick_to_thin c st lampam dist targets weights panel_weightings plies ref local_limit global_limit table (sst, lps, ss) = Ok (done, (sst', lps', ss')) /\
    ((forall l, In l lps -> length l = D) -> forall l, In l lps' -> length l = D).
Proof.
  intros HT Hr Hss Lsst Llps Lss. destruct (thin_table_spec (sym c) plies ref Hs Href Hpar) as (T0 & T1).
  unfold repair_thick_to_thin. destruct table as [steps|]; [|do 4 eexists; split; [reflexivity|auto]].
  assert (Hpos : (0 < ref)%nat) by (destruct ref; [rewrite T0 in HT by reflexivity; discriminate|lia]).
  destruct (T1 Hpos) as (t & Et & Lt & Rt). rewrite HT in Et. injection Et as <-.
  assert (row sst ref = Ok pdl_ref) as -> by (unfold row; rewrite Hr; reflexivity). cbn [bind].
  destruct (nth_error lps ref) as [lp|] eqn:El; [|apply nth_error_None in El; lia].
  assert (row lps ref = Ok lp) as -> by (unfold row; rewrite El; reflexivity). cbn [bind].
  assert (row ss ref = Ok (plies_of pdl_ref)) as -> by (unfold row; rewrite Hss; reflexivity). cbn [bind].
  destruct (start_total lp) as (m & -> & J0 & K0). cbn [bind].
  assert (ST : forall j s, nth_error steps j = Some s ->
     inherits (thin_branch c st plies pdl_ref) (thin_evaluate c lampam dist targets weights panel_weightings plies pdl_ref) Jr Kr (0 + j) s /\
     runs (thin_branch c st plies pdl_ref) (thin_evaluate c lampam dist targets weights panel_weightings plies pdl_ref) Jr Kr (0 + j) s).
  { intros j s Hj. assert (j < length steps)%nat by (apply nth_error_Some; congruence). destruct (Rt j H) as (s' & E' & R').
    assert (s' = s) as -> by congruence. pose proof R' as (i & A1 & A2 & A3 & A4 & A5 & A6 & A7 & A8 & _).
    destruct (thin_runs_step j s i A1 A2 A4 A5 A6 A7 A8 R') as (B1 & B2). split; assumption. }
  destruct (search_total (thin_branch c st plies pdl_ref) (thin_evaluate c lampam dist targets weights panel_weightings plies pdl_ref)
     (is_same_pdl ref) local_limit global_limit Jr Kr steps 0 [m] ST) as (o & Eo); [constructor; [auto|constructor]|].
  rewrite Eo. cbn [bind]. destruct o as [nodes|]; [|do 4 eexists; split; [reflexivity|auto]].
  apply (search_in _ _ _ _ _ Jr Kr) in Eo; [|intros j s Hj; apply (ST j s Hj)|constructor; [auto|constructor]].
  destruct Eo as (Ne & Fr). cbn [Nat.add] in Fr.
  destruct (argmin_ok (map (fun x => v_obj (snd x)) nodes)) as (kk & -> & Lk & _); [intros X; apply map_eq_nil in X; contradiction|]. cbn [bind].
  rewrite map_length in Lk. rewrite Forall_forall in Fr. destruct (Fr (nth kk nodes m) (nth_In _ _ Lk)) as (Jb & Kb). set (best := nth kk nodes m) in *.
  assert (LE : left_at c plies ref (length steps) = nth 0 plies 0) by (unfold left_at; unfold zlen in Lt; lia).
  assert (Des : forall j, (j < ref)%nat -> designed (length steps) j).
  { intros j Hj. right. split; [exact Hj|]. rewrite LE. pose proof (MOr 0 (S j) ltac:(lia)). pose proof du_pos. lia. }
  destruct Jb as ((JL & JR & JG & _) & JGood). destruct Kb as (K1 & K2 & K3 & K4 & K5 & K6 & K7).
  assert (Rows : forall j, (j < ref)%nat -> exists r, nth j (l_pdl (fst best)) None = Some r /\ length r = N /\ zlen (plies_of r) = nth j plies 0 /\ (sym c = true -> palindrome r) /\ (forall a, In a (plies_of r) -> In a (set_of_angles c))).
  { intros j Hj. destruct (Des j Hj) as [X|(_ & X)]; [lia|]. destruct (JG j Hj X) as (r & t & G1 & G2 & G3 & (F1 & _ & F3 & _) & G5 & _).
    assert (In (Some r) (l_pdl (fst best))) as Ir by (rewrite <- G1; apply nth_In; lia). destruct (JGood r Ir) as (_ & _ & JA).
    exists r. split; [exact G1|]. split; [exact F1|]. split; [|split; [exact F3|exact JA]]. rewrite G5, LE. pose proof (MLr 0 j ltac:(lia)). lia. }
  destruct (replace_rows_total ref (l_pdl (fst best)) sst) as (a1 & E1); [lia|intros j Hj; destruct (Rows j Hj) as (r & -> & _); discriminate|].
  rewrite E1. cbn [bind].
  destruct (replace_rows_total ref (v_lampam (snd best)) lps) as (a2 & E2); [lia|intros j Hj; destruct (K6 j Hj (Des j Hj)) as (r & -> & _); discriminate|].
  rewrite E2. cbn [bind].
  assert (Nm : forall j, nth j (map (option_map (filter kept)) (l_pdl (fst best))) None = option_map (filter kept) (nth j (l_pdl (fst best)) None)).
  { intros j. change (@None (list Z)) with (option_map (filter kept) None) at 1. apply map_nth. }
  destruct (replace_rows_total ref (map (option_map (filter kept)) (l_pdl (fst best))) ss) as (a3 & E3); [lia|intros j Hj; rewrite Nm; destruct (Rows j Hj) as (r & -> & _); discriminate|].
  rewrite E3. cbn [bind].
  apply replace_rows_ok in E1, E2, E3. destruct E1 as (L1 & _ & N1), E2 as (L2 & U2 & N2), E3 as (L3 & _ & N3).
  assert (Dims : (forall l, In l lps -> length l = D) -> forall l, In l a2 -> length l = D).
  { intros Hd l Hin. destruct (In_nth _ _ [] Hin) as (j & Lj & Ej). destruct (le_lt_dec ref j) as [Q|Q].
    - apply Hd. rewrite U2 in Ej by exact Q. rewrite <- Ej. apply nth_In. lia.
    - destruct (K6 j Q (Des j Q)) as (lpj & Elj & Llj & _). pose proof (N2 j [] Q) as X. congruence. }
  assert (R1 : forall j, (j < ref)%nat -> exists r, nth j a1 [] = r /\ nth j a3 [] = plies_of r /\ length r = N /\ zlen (plies_of r) = nth j plies 0 /\ (sym c = true -> palindrome r) /\ (forall a, In a (plies_of r) -> In a (set_of_angles c))).
  { intros j Hj. destruct (Rows j Hj) as (r & G1 & G2 & G3 & G4). exists r. split; [pose proof (N1 j [] Hj); congruence|]. split; [|auto].
    pose proof (N3 j [] Hj) as X. rewrite Nm, G1 in X. cbn [option_map] in X. rewrite kept_plies in X. congruence. }
  assert (Fin : forall {A} (l : list (list A)) x, (ref <= length l)%nat -> In x (firstn ref l) -> exists j, (j < ref)%nat /\ nth j l [] = x).
  { intros A l x Ll Hx. destruct (In_nth _ _ [] Hx) as (j & Lj & Ej). rewrite firstn_length in Lj. exists j. split; [lia|].
    rewrite <- Ej. rewrite <- (firstn_skipn ref l) at 1. rewrite app_nth1 by (rewrite firstn_length; lia). reflexivity. }
  assert (symmetry_check c plies ref a1 a3 = Ok tt) as ->.
  { unfold symmetry_check. destruct (sym c) eqn:Y; [|reflexivity].
    assert (forallb (fun s => mirror_ok (length s / 2) s) (firstn ref a3) = true) as ->.
    { apply forallb_forall. intros x Hx. destruct (Fin Z a3 x ltac:(lia) Hx) as (j & Lj & <-). destruct (R1 j Lj) as (r & _ & -> & _ & _ & P & _).
      apply mirror_okay; [apply pal_plies, P; reflexivity|]. apply Nat.div_le_upper_bound; lia. }
    assert (forallb (mirror_ok (N / 2)) (firstn ref a1) = true) as ->.
    { apply forallb_forall. intros x Hx. destruct (Fin Z a1 x ltac:(lia) Hx) as (j & Lj & <-). destruct (R1 j Lj) as (r & -> & _ & Lr & _ & P & _).
      apply mirror_okay; [apply P; reflexivity|]. rewrite Lr. apply Nat.div_le_upper_bound; lia. }
    reflexivity. }
  cbn [bind].
  assert (lampam_check (firstn ref a2) (map lampam (firstn ref a3)) = Ok tt) as ->.
  { unfold lampam_check. destruct (R1 0%nat Hpos) as (r & _ & E3' & _ & _ & P & PA).
    destruct (K6 0%nat Hpos (Des 0%nat Hpos)) as (lp0 & El0 & Ll0 & G0).
    pose proof (N2 0%nat [] Hpos) as X2. rewrite El0 in X2. injection X2 as X2.
    destruct a2 as [|b2 a2]; [cbn in L2; lia|]. destruct a3 as [|b3 a3]; [cbn in L3; lia|]. cbn [nth] in X2, E3'. subst b2 b3.
    destruct ref as [|ref']; [lia|]. cbn [firstn map concat].
    destruct (HGE lp0 (lampam (plies_of r)) G0 (HG _ ltac:(intros Y; apply pal_plies, P, Y) PA) Ll0 (f_lampam _ _ _ _ _ _ Hfit _)) as (z & Lz & Ez).
    apply guard_ok. apply not_true_is_false. intros X. rewrite forallb_forall in X.
    specialize (X (nth z lp0 0, nth z (lampam (plies_of r)) 0)%Q). cbn [fst snd] in X.
    assert (I : In (nth z lp0 0, nth z (lampam (plies_of r)) 0)%Q (List.combine (lp0 ++ concat (firstn ref' a2)) (lampam (plies_of r) ++ concat (map lampam (firstn ref' a3))))).
    { apply (combine_nth_in _ _ z); rewrite nth_error_app1 by (rewrite ?Ll0, ?(f_lampam _ _ _ _ _ _ Hfit); lia); apply nth_error_nth'; rewrite ?Ll0, ?(f_lampam _ _ _ _ _ _ Hfit); lia. }
    specialize (X I). apply negb_true_iff in X. apply Qeq_bool_neq in X. contradiction. }
  cbn [bind].
  assert (count_check plies ref a3 = Ok tt) as ->.
  { unfold count_check. apply guard_ok. apply negb_false_iff, forallb_forall. intros j Hj. apply in_seq in Hj. apply Z.eqb_eq.
    destruct (R1 j ltac:(lia)) as (r & _ & -> & _ & Z1 & _). exact Z1. }
  cbn [bind]. do 4 eexists. split; [reflexivity|exact Dims].
Qed.
End ThinRuns.

(* ------------------------------------------------------------------ *)
(** ** thin to thick *)
Section ThickRuns.
Variable c : cons.
Variable st : strip.
Variable lampam : list Z -> list Q.
Variable dist : list Q -> Q.
Variables (targets weights : list (list Q)) (panel_weightings : list Q).
Variables (plies : list Z) (ref : nat) (base : list (list Z)) (D : nat).
Local Notation du := (drop_unit (sym c)).
Local Notation nref := (nth ref plies 0).
Let ss_ref := nth ref base [].
Hypothesis Hset : ~ In dropped (set_of_angles c).
Hypothesis Hs : StronglySorted Z.lt plies.
Hypothesis Href : (ref < length plies)%nat.
Hypothesis Hpar : sym c = true -> forall i, (i < length plies)%nat -> Z.even (nth i plies 0) = Z.even (nth ref plies 0).
Hypothesis Hbase : (ref < length base)%nat.
Hypothesis Hrow : forall j, (j <= ref)%nat -> Z.of_nat (length (nth j base [])) = nref /\ (sym c = true -> palindrome (nth j base [])).
Hypothesis Hbl : forall j, (j < ref)%nat -> drops_from (nth j base []) (nth (S j) base []).
Hypothesis Hnod : ~ In dropped ss_ref.
Hypothesis Hcons : consistent c.
Hypothesis Hcontig : contig c = true -> (2 <= n_contig c <= 6)%nat.
Hypothesis Hangles : forall a, In a ss_ref -> In a (set_of_angles c).
Hypothesis Hbase0 : forall j, (j <= ref)%nat -> zlen (plies_of (nth j base [])) = nth j plies 0.
Hypothesis Hthin : 3 <= nth 0 plies 0.
Hypothesis Hst : strip_fits st (length plies).
Hypothesis Hfit : fits D (length plies) lampam targets weights panel_weightings.
Variable G : list Q -> Prop.
Hypothesis HG : forall s, (sym c = true -> palindrome s) -> (forall a, In a s -> In a (set_of_angles c)) -> G (lampam s).
Hypothesis HGE : forall lp lp', G lp -> G lp' -> length lp = D -> length lp' = D -> exists i, (i < D)%nat /\ (nth i lp 0 == nth i lp' 0)%Q.

Local Notation width := (width c plies ref).
Local Notation present := (present c plies ref).
Local Notation tinv := (thick_inv c lampam dist plies ref base).

Definition rows_fine (k : nat) (x : layout) : Prop :=
  forall j r, some_row x j r -> present k j /\ plies_of r <> [] /\ (forall a, In a (plies_of r) -> In a (set_of_angles c)).
Definition Jt (k : nat) (x : layout) : Prop := tinv k x /\ rows_fine k x.
Definition Kt (k : nat) (v : values_of) : Prop :=
  length (v_counts v) = length plies /\ length (v_lampam v) = length plies /\ length (v_objs v) = length plies /\
  (forall j, (ref <= j)%nat -> present k j -> exists cnt, nth j (v_counts v) None = Some cnt /\ length cnt = length (set_of_angles c) /\
      (sumQ cnt == inject_Z (Z.min (nth j plies 0) (width k))%Z)%Q) /\
  (forall j, (j < length plies)%nat -> exists lp, nth j (v_lampam v) None = Some lp /\ length lp = D /\ ((ref < j)%nat -> present k j -> G lp)).

Lemma MOt : forall a e, (a < e < length plies)%nat -> nth a plies 0 + du <= nth e plies 0.
Proof. exact (mono (sym c) plies ref Hs Href Hpar). Qed.
Lemma MLt : forall a e, (a <= e < length plies)%nat -> nth a plies 0 <= nth e plies 0.
Proof. intros a e H. destruct (Nat.eq_dec a e) as [->|]; [lia|]. pose proof (MOt a e ltac:(lia)). unfold drop_unit in *. destruct (sym c); lia. Qed.
Lemma nref_pos : 3 <= nref.
Proof. pose proof (MLt 0 ref ltac:(lia)). lia. Qed.
Lemma dut_pos : 0 < du.
Proof. unfold drop_unit. destruct (sym c); lia. Qed.

Definition srct (s : step) (i : nat) : nat := if s_new s then i else S i.
Lemma srct_row {A} (t : list (option A)) s i : s_panel s = Z.of_nat (S i) ->
  (if s_new s then row_at t (s_panel s - 1) else row_at t (s_panel s)) = row_at t (Z.of_nat (srct s i)).
Proof. intros ->. unfold srct. destruct (s_new s); [|reflexivity]. f_equal. lia. Qed.

Section Step.
Variables (k : nat) (s : step) (i : nat).
Hypothesis S0 : (ref <= i)%nat.
Hypothesis S0' : (S i < length plies)%nat.
Hypothesis S1 : s_panel s = Z.of_nat (S i).
Hypothesis S3 : s_before s = nref + du * Z.of_nat k.
Hypothesis S5 : s_before s + du <= nth (S i) plies 0.
Hypothesis S6 : nth i plies 0 <= s_before s.
Hypothesis S7 : s_new s = true <-> s_before s = nth i plies 0.

Lemma wk : s_before s = width k.
Proof. unfold RedesignThick.width. exact S3. Qed.
Lemma wSk : width (S k) = width k + du.
Proof. unfold RedesignThick.width. lia. Qed.
Lemma wn : Z.of_nat (plies_at c plies ref k) = width k.
Proof. pose proof nref_pos. pose proof dut_pos. unfold plies_at, RedesignThick.width. rewrite Z2Nat.id; nia. Qed.
Lemma old j : (j <= i)%nat -> present k j.
Proof.
  intros Hj. split; [lia|]. destruct (le_lt_dec j ref); [now left|]. right. pose proof (MOt (j - 1)%nat j ltac:(lia)). pose proof (MLt j i ltac:(lia)). pose proof wk. pose proof dut_pos. lia.
Qed.
Lemma new j : present (S k) j -> (j <= S i)%nat.
Proof.
  intros (Hj & [Hj'|Hj']); [lia|]. rewrite wSk in Hj'. destruct (le_lt_dec j (S i)); [assumption|]. pose proof (MLt (S i) (j - 1)%nat ltac:(lia)). pose proof wk. lia.
Qed.
Lemma present_next j : present k j -> present (S k) j.
Proof. intros (A & [B|B]); split; auto. right. rewrite wSk. pose proof dut_pos. lia. Qed.
Lemma present_new : present (S k) (S i).
Proof. split; [exact S0'|]. right. rewrite wSk. replace (S i - 1)%nat with i by lia. pose proof wk. pose proof dut_pos. lia. Qed.
Lemma srct_facts : (ref <= srct s i)%nat /\ present k (srct s i) /\ width k <= nth (srct s i) plies 0 /\ (srct s i <= S i)%nat.
Proof.
  pose proof wk as E. pose proof dut_pos as Hd. unfold srct. destruct (s_new s) eqn:W.
  - assert (Eb : s_before s = nth i plies 0) by (apply S7; reflexivity). split; [lia|]. split; [apply old; lia|]. split; lia.
  - assert (Eb : nth i plies 0 < s_before s) by (assert (s_before s <> nth i plies 0) by (intros X; apply S7 in X; discriminate); lia).
    split; [lia|]. split; [|split; lia]. split; [exact S0'|]. right. replace (S i - 1)%nat with i by lia. lia.
Qed.
Lemma source_t x : Jt k x -> exists r, nth (srct s i) (l_pdl x) None = Some r /\ Z.of_nat (length r) = width k /\ ~ In dropped r /\
  (forall a, In a r -> In a (set_of_angles c)) /\ length (l_pdl x) = length plies.
Proof.
  intros ((L & Gd & DR & (j0 & r0 & J1 & J2 & J3 & J4 & J5 & J6 & J7)) & Fine). pose proof wk as E. pose proof dut_pos as Hd.
  assert (Src : j0 = srct s i).
  { unfold srct. destruct (s_new s) eqn:W.
    - assert (Eb : s_before s = nth i plies 0) by (apply S7; reflexivity).
      destruct (lt_eq_lt_dec j0 i) as [[X|X]|X]; [|exact X|].
      + pose proof (MOt j0 i ltac:(lia)). lia.
      + specialize (J2 ltac:(lia)). pose proof (MLt i (j0 - 1)%nat ltac:(lia)). lia.
    - assert (Eb : nth i plies 0 < s_before s) by (assert (s_before s <> nth i plies 0) by (intros X; apply S7 in X; discriminate); lia).
      destruct (lt_eq_lt_dec j0 (S i)) as [[X|X]|X]; [|exact X|].
      + pose proof (MLt j0 i ltac:(lia)). lia.
      + specialize (J2 ltac:(lia)). pose proof (MLt (S i) (j0 - 1)%nat ltac:(lia)). lia. }
  destruct srct_facts as (F1 & F2 & F3 & F4). rewrite <- Src in *.
  destruct (Gd j0 F2) as (r1 & R1 & (R2 & _) & _). exists r0. unfold some_row in *. assert (r1 = r0) as -> by congruence.
  split; [exact J4|]. split; [exact R2|]. split; [exact J5|]. split; [|exact L].
  destruct (Fine j0 r0 J4) as (_ & _ & Fa). rewrite (no_drop_plies _ J5) in Fa. exact Fa.
Qed.

Lemma values_next v c2 lp q ob dd objs : Kt k v -> q = S i -> length c2 = length (set_of_angles c) -> (sumQ c2 == inject_Z (width (S k)))%Q ->
  length lp = D -> G lp -> length objs = length plies ->
  Kt (S k) {| v_counts := upd q (Some c2) (v_counts v); v_lampam := upd q (Some lp) (v_lampam v); v_diso := dd; v_objs := objs; v_obj := ob |}.
Proof.
  intros (K1 & K2 & K3 & K4 & K5) Eq L2 Sw Ll Gl Lo. unfold Kt. cbn [v_counts v_lampam v_objs]. rewrite !upd_length.
  split; [exact K1|]. split; [exact K2|]. split; [exact Lo|]. split.
  - intros j Hj Pj. rewrite nth_upd. destruct (Nat.eqb_spec q j) as [<-|Nj].
    + destruct (Nat.ltb_spec q (length (v_counts v))); [|lia]. cbn [andb]. exists c2. split; [reflexivity|]. split; [exact L2|].
      rewrite Sw. replace (Z.min (nth q plies 0) (width (S k))) with (width (S k)); [reflexivity|]. rewrite Eq. pose proof wSk. pose proof wk. lia.
    + cbn [andb]. pose proof (new j Pj) as Lj. destruct (K4 j Hj (old j ltac:(lia))) as (cn & A1 & A2 & A3). exists cn. split; [exact A1|]. split; [exact A2|].
      rewrite A3. pose proof (MLt j i ltac:(lia)). pose proof wSk. pose proof wk. pose proof dut_pos.
      replace (Z.min (nth j plies 0) (width (S k))) with (Z.min (nth j plies 0) (width k)) by lia. reflexivity.
  - intros j Lj. rewrite nth_upd. destruct (Nat.eqb_spec q j) as [<-|Nj].
    + destruct (Nat.ltb_spec q (length (v_lampam v))); [|lia]. cbn [andb]. exists lp. auto.
    + cbn [andb]. destruct (K5 j Lj) as (l0 & A1 & A2 & A3). exists l0. split; [exact A1|]. split; [exact A2|]. intros B1 B2. apply A3; [exact B1|].
      pose proof (new j B2). apply old. lia.
Qed.

Section Child.
Variables (m : node) (p : nat) (a : Z) (r : list Z).
Hypothesis HJ : Jt k (fst m).
Hypothesis HK : Kt k (snd m).
Hypothesis Rr : nth (srct s i) (l_pdl (fst m)) None = Some r.
Hypothesis Rn : Z.of_nat (length r) = width k.
Hypothesis Rd : ~ In dropped r.
Hypothesis Ra : forall x, In x r -> In x (set_of_angles c).
Hypothesis Rl : length (l_pdl (fst m)) = length plies.
Hypothesis Pp : (p <= plies_at c plies ref k)%nat.
Hypothesis Pa : In a (set_of_angles c).
Local Notation n := (plies_at c plies ref k).
Local Notation r2 := (widen c n p a r).

Lemma a_kept : a <> -1.
Proof. intros ->. apply Hset, Pa. Qed.
Lemma r2_nodrop : ~ In dropped r2.
Proof. intros X. apply widen_in in X. destruct X as [X|X]; [now elim a_kept|now elim Rd]. Qed.
Lemma r2_len : zlen r2 = width (S k).
Proof. unfold zlen. rewrite widen_length, wSk. lia. Qed.
Lemma r2_long : 3 <= zlen r2.
Proof. rewrite r2_len. unfold RedesignThick.width. pose proof nref_pos. pose proof dut_pos. nia. Qed.
Lemma r2_angles x : In x r2 -> In x (set_of_angles c).
Proof. intros X. apply widen_in in X. destruct X as [->|X]; [exact Pa|now apply Ra]. Qed.

Lemma widen_rows_total q : forall e (t : list (option (list Z))), (forall j, (j < e)%nat -> nth j t None <> None) ->
  exists t', widen_rows c e n q t = Ok t'.
Proof.
  induction e as [|e IH]; intros t H; [destruct t as [|[]]; cbn; eauto|].
  pose proof (H 0%nat ltac:(lia)) as H0. destruct t as [|[x|] t]; cbn in H0; try congruence. cbn [widen_rows].
  destruct (IH t) as (t' & ->); [intros j Hj; apply (H (S j)); lia|]. cbn [bind]. eauto.
Qed.
Lemma some_or (o : option (list Z)) : o = None \/ exists x, o = Some x.
Proof. destruct o; eauto. Qed.

Lemma child_total_t : exists o, thick_child c st n s m (p, a) = Ok o.
Proof.
  unfold thick_child. cbn [fst snd]. destruct (_ && _)%bool; [eauto|].
  destruct srct_facts as (F1 & F2 & F3 & F4). destruct HJ as ((L & Gd & _) & Fine).
  assert (exists pdl0, (if s_new s then do r0 <- row_at (l_pdl (fst m)) (s_panel s - 1); set_row (l_pdl (fst m)) (s_panel s) r0 else Ok (l_pdl (fst m))) = Ok pdl0 /\
     length pdl0 = length plies /\ nth (S i) pdl0 None = Some r /\ (forall j, (j <> S i)%nat -> nth j pdl0 None = nth j (l_pdl (fst m)) None)) as (pdl0 & -> & L0 & N0 & K0).
  { unfold srct in *. destruct (s_new s).
    - rewrite S1. replace (Z.of_nat (S i) - 1) with (Z.of_nat i) by lia. rewrite (row_at_is (l_pdl (fst m)) i r ltac:(lia) Rr). cbn [bind].
      rewrite set_row_nat by lia. eexists. split; [reflexivity|]. split; [now rewrite upd_length|]. split.
      + rewrite nth_upd, Nat.eqb_refl. destruct (Nat.ltb_spec (S i) (length (l_pdl (fst m)))); [reflexivity|lia].
      + intros j Hj. rewrite nth_upd. destruct (Nat.eqb_spec (S i) j); [congruence|reflexivity].
    - eexists. split; [reflexivity|]. auto. }
  cbn [bind]. rewrite S1, Nat2Z.id.
  destruct (widen_rows_total p (S i) pdl0) as (pdl1 & E1).
  { intros j Hj. rewrite K0 by lia. destruct (Gd j (old j ltac:(lia))) as (t & T & _). unfold some_row in T. rewrite T. discriminate. }
  rewrite E1. cbn [bind]. apply widen_rows_ok in E1. destruct E1 as (L1 & K1 & W1).
  rewrite (row_at_is pdl1 (S i) r) by (rewrite ?K1 by lia; first [lia|exact N0]). cbn [bind]. rewrite set_row_nat by lia. cbn [bind].
  unfold spacing_of. destruct (spacing_total (pdl_spacing c) (min_drop c) st (upd (S i) (Some r2) pdl1) (Z.to_nat (width (S k)))) as (q & ->).
  - rewrite upd_length, L1, L0. exact Hst.
  - intros t Ht. destruct (In_nth _ _ None Ht) as (j & Lj & Ej). rewrite upd_length in Lj. rewrite nth_upd in Ej.
    destruct (Nat.eqb_spec (S i) j) as [<-|Nj].
    + destruct (Nat.ltb_spec (S i) (length pdl1)); [|lia]. cbn [andb] in Ej. injection Ej as <-.
      split; [rewrite <- r2_len; unfold zlen; lia|]. rewrite (no_drop_plies _ r2_nodrop). intros X. pose proof r2_long as Y. rewrite X in Y. cbn in Y. lia.
    + cbn [andb] in Ej. destruct (le_lt_dec (S i) j) as [Q|Q].
      * rewrite K1, K0 in Ej by lia. destruct (Fine j t Ej) as (Pj & _). apply present_next, new in Pj. lia.
      * destruct (W1 j ltac:(lia)) as (t0 & T1 & T2). rewrite T2 in Ej. injection Ej as <-. rewrite K0 in T1 by lia.
        destruct (Gd j (old j ltac:(lia))) as (t1 & T3 & (T4 & _) & _). unfold some_row in T3. assert (t1 = t0) as -> by congruence.
        split; [pose proof (widen_length c n p (-1) t0); pose proof wSk; lia|]. rewrite widen_plies. apply (Fine j t0 T1).
  - cbn [bind]. eauto.
Qed.

Lemma child_fine x : thick_child c st n s m (p, a) = Ok (Some x) -> rows_fine (S k) x /\ nth (S i) (l_pdl x) None = Some r2 /\ length (l_pdl x) = length plies /\ l_last x = p.
Proof.
  intros H. destruct HJ as ((L & Gd & _) & Fine).
  assert (Tail : forall j, (S i < j)%nat -> nth j (l_pdl x) None = None).
  { intros j Hj. unfold thick_child in H. rewrite S1 in H.
    match type of H with (if ?b then _ else _) = _ => destruct b eqn:Q; [discriminate|] end.
    match type of H with bind ?z _ = _ => destruct z as [pdl0|] eqn:E0; [|discriminate] end. cbn [bind] in H.
    match type of H with bind ?z _ = _ => destruct z as [pdl1|] eqn:E1; [|discriminate] end. cbn [bind] in H.
    match type of H with bind ?z _ = _ => destruct z as [r'|] eqn:E2; [|discriminate] end. cbn [bind] in H.
    match type of H with bind ?z _ = _ => destruct z as [pdl|] eqn:E3; [|discriminate] end. cbn [bind] in H.
    match type of H with bind ?z _ = _ => destruct z as [sp|] eqn:E4; [|discriminate] end. cbn [bind] in H.
    injection H as <-. cbn [l_pdl]. rewrite Nat2Z.id in E1. apply widen_rows_ok in E1. destruct E1 as (L1 & K1 & W1).
    assert (L0 : length pdl0 = length plies /\ nth j pdl0 None = nth j (l_pdl (fst m)) None).
    { destruct (s_new s); [|injection E0 as <-; auto].
      destruct (row_at (l_pdl (fst m)) (Z.of_nat (S i) - 1)) as [r0|] eqn:Er; [|discriminate]. cbn [bind] in E0. rewrite set_row_nat in E0 by lia.
      assert (pdl0 = upd (S i) (Some r0) (l_pdl (fst m))) as -> by congruence. rewrite upd_length, nth_upd. split; [exact L|]. destruct (Nat.eqb_spec (S i) j); [lia|reflexivity]. }
    destruct L0 as (L0 & N0). rewrite set_row_nat in E3 by lia. match type of E3 with Ok ?z = Ok _ => assert (pdl = z) as -> by congruence end.
    rewrite nth_upd. destruct (Nat.eqb_spec (S i) j); [lia|]. cbn [andb]. rewrite K1 by lia. rewrite N0.
    destruct (some_or (nth j (l_pdl (fst m)) None)) as [?|(t & Et)]; [assumption|]. destruct (Fine j t Et) as (Pj & _). apply present_next, new in Pj. lia. }
  destruct (thick_child_ok c st plies n s m p a x i S1 L S0' H) as (r' & Er & Lx & Nx & Wx & El & _).
  assert (r' = r) as -> by (unfold srct in Rr; congruence).
  split; [|auto]. intros j t Et. unfold some_row in Et. destruct (lt_eq_lt_dec j (S i)) as [[Q|Q]|Q].
  - destruct (Wx j ltac:(lia)) as (t0 & T1 & T2). rewrite T2 in Et. injection Et as <-. destruct (Fine j t0 T1) as (A & B & C).
    rewrite widen_plies. split; [apply present_next, A|]. auto.
  - subst j. rewrite Nx in Et. injection Et as <-. split; [apply present_new|]. rewrite (no_drop_plies _ r2_nodrop). split; [|exact r2_angles].
    intros X. pose proof r2_long as Y. rewrite X in Y. cbn in Y. lia.
  - rewrite Tail in Et by lia. discriminate.
Qed.

Hypothesis Mir : sym c = true -> palindrome r2.
Lemma evaluate_total_t x : nth (S i) (l_pdl x) None = Some r2 -> length (l_pdl x) = length plies -> l_last x = p ->
  exists o, thick_evaluate c lampam dist targets weights panel_weightings s m x = Ok o /\ forall v, o = Some v -> Kt (S k) v.
Proof.
  intros Nx Lx El. unfold thick_evaluate. cbv zeta. destruct HK as (K1 & K2 & K3 & K4 & K5). destruct srct_facts as (F1 & F2 & F3 & F4).
  rewrite S1. rewrite (row_at_is (l_pdl x) (S i) r2 ltac:(lia) Nx). cbn [bind]. rewrite kept_plies, (no_drop_plies _ r2_nodrop).
  assert (Fa : Forall angle_ok r2).
  { destruct (k_set c Hcons) as (_ & Fs & _). rewrite Forall_forall in Fs. apply Forall_forall. intros y Hy. apply Fs, r2_angles, Hy. }
  pose proof r2_long as R3.
  assert (exists b, breaks_diso c r2 = Ok b) as (bd & ->).
  { unfold breaks_diso. destruct (diso c); [|eauto]. destruct (diso_total c r2 Fa) as (d & ->); [unfold zlen in R3; lia|]. cbn [bind]. eauto. }
  cbn [bind]. destruct bd; [eexists; split; [reflexivity|discriminate]|].
  destruct (breaks_contig_total c r2 Hcontig) as (bc & ->). cbn [bind]. destruct bc; [eexists; split; [reflexivity|discriminate]|].
  rewrite <- S1, (srct_row _ s i S1), S1. destruct (K4 _ F1 F2) as (cnt & Ec & Lc & Sc). rewrite (row_at_is (v_counts (snd m)) (srct s i) cnt ltac:(lia) Ec). cbn [bind].
  assert (Hp : (p < length r2)%nat).
  { pose proof r2_len as X. unfold zlen in X. pose proof wSk. pose proof wn. pose proof dut_pos. lia. }
  rewrite El. assert (nth_error r2 p = Some (nth p r2 0)) as -> by (apply nth_error_nth'; exact Hp). cbn [bind].
  destruct (unit_counts_total c (nth p r2 0) cnt (inject_Z du)) as (c2 & -> & L2 & S2); [apply r2_angles, nth_In, Hp|exact Lc|]. cbn [bind].
  rewrite set_row_nat by lia. cbn [bind]. rewrite set_row_nat by lia. cbn [bind].
  assert (Sw : (sumQ c2 == inject_Z (width (S k)))%Q).
  { rewrite S2, Sc. replace (Z.min (nth (srct s i) plies 0) (width k)) with (width k) by lia. rewrite wSk, inject_Z_plus. reflexivity. }
  destruct (breaks_10_total c dist (lampam r2) c2 (k_set c Hcons) L2) as (bt & ->).
  { rewrite Sw. change 0%Q with (inject_Z 0). rewrite <- Zlt_Qlt. rewrite <- r2_len. lia. }
  cbn [bind]. destruct bt; [eexists; split; [reflexivity|discriminate]|].
  destruct (objectives_total D (length plies) lampam targets weights panel_weightings no_penalties (S i) r2 (v_objs (snd m)) Hfit S0' K3) as (o & -> & Lo & No).
  { intros objs' j w L' N' Hj. unfold panel_term.
    assert (nth_error objs' j = Some (nth j objs' None)) as -> by (apply nth_error_nth'; lia).
    destruct (nth j objs' None) as [ob|] eqn:Eo; [|eauto]. cbn [no_penalties p_diso p_contig p_10 p_bal_ipo p_oopo p_weight panel_factor panel_factor_indexed bind]. eauto. }
  cbn [bind]. eexists. split; [reflexivity|]. intros v Ev. match type of Ev with Some ?z = Some _ => assert (v = z) as -> by congruence end.
  apply (values_next (snd m) c2 (lampam r2) (S i)); auto; [apply (f_lampam _ _ _ _ _ _ Hfit)|apply HG; [exact Mir|exact r2_angles]].
Qed.
End Child.

Lemma thick_positions_total n : exists ps, thick_positions c n = Ok ps.
Proof.
  unfold thick_positions. destruct (covering c) eqn:E; [|eauto]. pose proof (k_cover c Hcons E). pose proof (k_ncover c Hcons).
  destruct (Nat.eqb_spec (n_covering c) 1); [eauto|]. destruct (Nat.eqb_spec (n_covering c) 2); [eauto|lia].
Qed.

Hypothesis Tr : thick_row (sym c) plies ref k s.
Lemma thick_runs_step :
  runs (thick_branch c st plies ref) (thick_evaluate c lampam dist targets weights panel_weightings) Jt Kt k s /\
  inherits (thick_branch c st plies ref) (thick_evaluate c lampam dist targets weights panel_weightings) Jt Kt k s.
Proof.
  assert (Row : forall m, Jt k (fst m) -> Kt k (snd m) -> forall ps p a, thick_positions c (plies_at c plies ref k) = Ok ps -> In p ps -> In a (set_of_angles c) ->
     (exists o, thick_child c st (plies_at c plies ref k) s m (p, a) = Ok o) /\
     forall x, thick_child c st (plies_at c plies ref k) s m (p, a) = Ok (Some x) ->
       rows_fine (S k) x /\ exists o, thick_evaluate c lampam dist targets weights panel_weightings s m x = Ok o /\ forall v, o = Some v -> Kt (S k) v).
  { intros m HJ HK ps p a Ep Hp Ha. destruct (thick_positions_in c _ ps p Ep Hp) as (P1 & P2 & _).
    destruct (source_t (fst m) HJ) as (r & Rr & Rn & Rd & Ra & Rl).
    split; [eapply child_total_t; eauto|]. intros x Hx.
    destruct (child_fine m p a r HJ Rr Rn Rd Ra Rl P1 Ha x Hx) as (A & B & C & E). split; [exact A|].
    eapply (evaluate_total_t m p a r); eauto.
    intros Y. replace (plies_at c plies ref k) with (length r) by (pose proof wn; lia). apply widen_mirror; [exact Y| |].
    - specialize (P2 Y). pose proof wn. lia.
    - destruct HJ as ((L & Gd & _) & _). destruct srct_facts as (F1 & F2 & _). destruct (Gd _ F2) as (r1 & R1 & (_ & R2) & _).
      unfold some_row in R1. assert (r1 = r) as -> by congruence. apply R2, Y. }
  assert (Br : forall m l x, thick_branch c st plies ref k s m = Ok l -> In x l -> exists ps p a, thick_positions c (plies_at c plies ref k) = Ok ps /\
     In p ps /\ In a (set_of_angles c) /\ thick_child c st (plies_at c plies ref k) s m (p, a) = Ok (Some x)).
  { intros m l x Hb Hx. unfold thick_branch in Hb. destruct (thick_positions_total (plies_at c plies ref k)) as (ps & Ep). rewrite Ep in Hb. cbn [bind] in Hb.
    destruct (children_in _ _ _ _ Hb Hx) as ((p & a) & Hq & Hc). apply in_prod_iff in Hq. destruct Hq. exists ps, p, a. auto. }
  split.
  - intros m HJ HK. destruct (thick_positions_total (plies_at c plies ref k)) as (ps & Ep).
    assert (exists l, thick_branch c st plies ref k s m = Ok l) as (l & El).
    { unfold thick_branch. rewrite Ep. cbn [bind]. apply children_total. intros (p & a) Hq. apply in_prod_iff in Hq. destruct Hq as (Hp & Ha). apply (Row m HJ HK ps p a Ep Hp Ha). }
    exists l. split; [exact El|]. intros x Hx. destruct (Br m l x El Hx) as (ps' & p & a & Ep' & Hp & Ha & Hc).
    destruct (Row m HJ HK ps' p a Ep' Hp Ha) as (_ & H2). destruct (H2 x Hc) as (_ & o & Eo & _). eauto.
  - intros m l x v HJ HK Hb Hx He. destruct (Br m l x Hb Hx) as (ps' & p & a & Ep' & Hp & Ha & Hc).
    destruct (Row m HJ HK ps' p a Ep' Hp Ha) as (_ & H2). destruct (H2 x Hc) as (Rg & o & Eo & Ho).
    rewrite He in Eo. injection Eo as <-. split; [|apply Ho; reflexivity]. split; [|exact Rg].
    assert (Hpos : 0 <= nref) by (pose proof nref_pos; lia).
    destruct (thick_inherits c st lampam dist targets weights panel_weightings plies ref base Hset Hs Href Hpar k s Tr Hpos m l x v (proj1 HJ) Logic.I Hb Hx He) as (T & _). exact T.
Qed.
End Step.

Lemma sublist_in l m : sublist l m -> forall a : Z, In a l -> In a m.
Proof using. clear. induction 1; intros a Ha; [exact Ha| |]; [destruct Ha as [->|Ha]; [now left|right; auto]|right; auto]. Qed.
Lemma start_total_t lps : length lps = length plies -> (forall l, In l lps -> length l = D) ->
  exists m, thick_start c plies ref base lps ss_ref = Ok m /\ Jt 0 (fst m) /\ Kt 0 (snd m).
Proof.
  intros Ll Hl.
  destruct (count_plies_total c ss_ref (repeat 0%Q (length (set_of_angles c))) Hangles (repeat_length _ _)) as (cnt & E & Lc & Sc).
  assert (Z0 : (sumQ (repeat 0%Q (length (set_of_angles c))) == 0)%Q) by (clear; induction (length (set_of_angles c)) as [|n IH]; cbn; [reflexivity|rewrite IH; reflexivity]).
  assert (exists m, thick_start c plies ref base lps ss_ref = Ok m) as (m & Em) by (unfold thick_start; rewrite E; cbn [bind]; eauto).
  exists m. split; [exact Em|].
  pose proof (thick_start_inv c lampam dist plies ref base Hs Href Hpar Hbase Hrow Hbl Hnod lps ss_ref m Em) as J0.
  unfold thick_start in Em. rewrite E in Em. cbn [bind] in Em. match type of Em with Ok ?z = Ok _ => assert (m = z) as -> by congruence end. clear Em.
  assert (W0 : width 0 = nref) by (unfold RedesignThick.width; lia).
  cbn [fst snd] in *. split; [split; [exact J0|]|].
  - intros j r Er. unfold some_row in Er. cbn [l_pdl] in Er.
    assert (Lf : length (map Some (firstn (S ref) base)) = S ref) by (rewrite map_length, firstn_length; lia).
    destruct (le_lt_dec j ref) as [Q|Q].
    + rewrite app_nth1 in Er by (rewrite Lf; lia). rewrite (nth_indep _ None (Some [])) in Er by (rewrite Lf; lia). rewrite map_nth in Er. rewrite nth_firstn in Er by lia.
      assert (r = nth j base []) as -> by congruence. split; [split; [lia|now left]|]. split.
      * intros X. pose proof (Hbase0 j Q) as Y. rewrite X in Y. pose proof (MLt 0 j ltac:(lia)). cbn in Y. lia.
      * assert (C : forall e j, (j + e = ref)%nat -> forall a, In a (plies_of (nth j base [])) -> In a ss_ref).
        { clear -Hbl Hnod Hbase. subst ss_ref. induction e as [|e IH]; intros j Hj a Ha.
          - replace j with ref in Ha by lia. rewrite (no_drop_plies _ Hnod) in Ha. exact Ha.
          - apply (IH (S j) ltac:(lia)). apply (sublist_in _ _ (drops_sublist_plies _ _ (Hbl j ltac:(lia))) _ Ha). }
        intros a Ha. apply Hangles. apply (C (ref - j)%nat j ltac:(lia) a Ha).
    + rewrite app_nth2 in Er by (rewrite Lf; lia). rewrite nth_repeat in Er. discriminate.
  - unfold Kt, only. cbn [v_counts v_lampam v_objs]. rewrite !upd_length, map_length. unfold nones at 1 2. rewrite !repeat_length.
    split; [reflexivity|]. split; [exact Ll|]. split; [reflexivity|]. split.
    + intros j Hj (Pj & Pj'). assert (j = ref) as ->.
      { destruct Pj' as [X|X]; [lia|]. rewrite W0 in X. destruct (Nat.eq_dec j ref); [assumption|]. pose proof (MLt ref (j - 1)%nat ltac:(lia)). lia. }
      rewrite nth_upd, Nat.eqb_refl. unfold nones. rewrite repeat_length. destruct (Nat.ltb_spec ref (length plies)); [|lia]. cbn [andb].
      exists cnt. split; [reflexivity|]. split; [exact Lc|]. rewrite Sc, Z0, W0, Z.min_id. pose proof (Hbase0 ref (le_n _)) as Y.
      fold ss_ref in Y. rewrite (no_drop_plies _ Hnod) in Y. rewrite Y. ring.
    + intros j Lj. exists (nth j lps []). rewrite (nth_indep _ None (Some [])) by (rewrite map_length; lia). rewrite map_nth. split; [reflexivity|]. split; [apply Hl, nth_In; lia|].
      intros A (_ & [B|B]); [lia|]. rewrite W0 in B. pose proof (MLt ref (j - 1)%nat ltac:(lia)). lia.
Qed.

Lemma all_rows_total {A} (t : list (option A)) : (forall j, (j < length t)%nat -> nth j t None <> None) -> exists r, all_rows t = Ok r.
Proof.
  clear. induction t as [|o t IH]; intros H; cbn [all_rows]; [eauto|]. pose proof (H 0%nat ltac:(cbn; lia)) as H0. destruct o as [x|]; cbn in H0; [|congruence].
  destruct IH as (r & ->); [intros j Hj; apply (H (S j)); cbn; lia|]. cbn [bind]. eauto.
Qed.
Lemma nth_concat (d : nat) (l : list (list Q)) j z : (forall x, In x l -> length x = d) -> (j < length l)%nat -> (z < d)%nat ->
  nth_error (concat l) (j * d + z)%nat = Some (nth z (nth j l []) 0%Q).
Proof.
  clear. revert j. induction l as [|x l IH]; intros j H Lj Lz; [cbn in Lj; lia|]. cbn [concat]. pose proof (H x ltac:(now left)) as Lx.
  destruct j as [|j].
  - cbn [Nat.mul Nat.add nth]. rewrite nth_error_app1 by lia. apply nth_error_nth'. lia.
  - rewrite nth_error_app2 by nia. replace (S j * d + z - length x)%nat with (j * d + z)%nat by nia. apply IH; [intros; apply H; now right|cbn in Lj; lia|exact Lz].
Qed.

Lemma thick_tail_total local_limit global_limit steps lps :
  thick_table (sym c) plies ref = Ok (Some steps) -> length lps = length plies -> (forall l, In l lps -> length l = D) ->
  exists m o, thick_start c plies ref base lps ss_ref = Ok m /\
    search (thick_branch c st plies ref) (thick_evaluate c lampam dist targets weights panel_weightings) never_same local_limit global_limit 0 steps [m] = Ok o /\
    forall nodes, o = Some nodes -> exists k sst' lps', argmin (map (fun x => v_obj (snd x)) nodes) = Ok k /\
      all_rows (l_pdl (fst (nth k nodes m))) = Ok sst' /\ all_rows (v_lampam (snd (nth k nodes m))) = Ok lps' /\
      symmetry_check c plies ref sst' (convert_sst_to_ss sst') = Ok tt /\
      lampam_check lps' (map lampam (convert_sst_to_ss sst')) = Ok tt /\ count_check plies ref (convert_sst_to_ss sst') = Ok tt.
Proof.
  intros HT Ll Hl. destruct (thick_table_spec (sym c) plies ref Hs Href Hpar) as (T0 & T1).
  assert (Hlt : (S ref < length plies)%nat) by (destruct (Nat.eq_dec (S ref) (length plies)) as [E|E]; [rewrite T0 in HT by exact E; discriminate|lia]).
  destruct (T1 Hlt) as (t & Et & Lt & Rt). rewrite HT in Et. injection Et as <-.
  destruct (start_total_t lps Ll Hl) as (m & Em & J0 & K0). exists m.
  assert (ST : forall j s, nth_error steps j = Some s ->
     inherits (thick_branch c st plies ref) (thick_evaluate c lampam dist targets weights panel_weightings) Jt Kt (0 + j) s /\
     runs (thick_branch c st plies ref) (thick_evaluate c lampam dist targets weights panel_weightings) Jt Kt (0 + j) s).
  { intros j s Hj. assert (j < length steps)%nat by (apply nth_error_Some; congruence). destruct (Rt j H) as (s' & E' & R').
    assert (s' = s) as -> by congruence. pose proof R' as (i & A0 & A1 & A2 & A3 & A4 & A5 & A6 & A7 & A8 & _).
    rewrite A5 in A6. destruct (thick_runs_step j s i A0 A1 A2 A4 A6 A7 A8 R') as (B1 & B2). split; assumption. }
  destruct (search_total (thick_branch c st plies ref) (thick_evaluate c lampam dist targets weights panel_weightings)
     never_same local_limit global_limit Jt Kt steps 0 [m] ST) as (o & Eo); [constructor; [auto|constructor]|].
  exists o. split; [exact Em|]. split; [exact Eo|]. intros nodes ->. pose proof Eo as Es.
  apply (search_in _ _ _ _ _ Jt Kt) in Eo; [|intros j s Hj; apply (ST j s Hj)|constructor; [auto|constructor]].
  destruct Eo as (Ne & Fr). cbn [Nat.add] in Fr.
  destruct (argmin_ok (map (fun x => v_obj (snd x)) nodes)) as (kk & Ek & Lk & _); [intros X; apply map_eq_nil in X; contradiction|].
  rewrite map_length in Lk. rewrite Forall_forall in Fr. destruct (Fr (nth kk nodes m) (nth_In _ _ Lk)) as (Jb & Kb). set (best := nth kk nodes m) in *.
  assert (W : width (length steps) = last plies 0) by (unfold RedesignThick.width; unfold zlen in Lt; lia).
  assert (LN : last plies 0 = nth (length plies - 1) plies 0) by (apply (last_nth (sym c) plies ref Href); intros E; rewrite E in Href; cbn in Href; lia).
  assert (Pr : forall j, (j < length plies)%nat -> present (length steps) j).
  { intros j Hj. split; [exact Hj|]. destruct (le_lt_dec j ref); [now left|]. right. rewrite W, LN. pose proof (MOt (j - 1)%nat (length plies - 1)%nat ltac:(lia)). pose proof dut_pos. lia. }
  destruct Jb as ((JL & JG & _) & JF). destruct Kb as (K1 & K2 & K3 & K4 & K5).
  destruct (all_rows_total (l_pdl (fst best))) as (a1 & E1).
  { intros j Hj. destruct (JG j (Pr j ltac:(lia))) as (r & R & _). unfold some_row in R. rewrite R. discriminate. }
  destruct (all_rows_total (v_lampam (snd best))) as (a2 & E2).
  { intros j Hj. destruct (K5 j ltac:(lia)) as (r & R & _). rewrite R. discriminate. }
  exists kk, a1, a2. split; [exact Ek|]. split; [exact E1|]. split; [exact E2|].
  destruct (thick_search c st lampam dist targets weights panel_weightings plies ref base Hset Hs Href Hpar Hbase Hrow local_limit global_limit steps m nodes best
     ltac:(pose proof nref_pos; lia) HT (proj1 J0) Es (nth_In _ _ Lk) a1 E1) as (R1 & R2 & R3).
  assert (Cn : forall j, nth j (convert_sst_to_ss a1) [] = plies_of (nth j a1 [])).
  { intros j. unfold convert_sst_to_ss. change (@nil Z) with (filter kept []) at 1. rewrite map_nth. reflexivity. }
  assert (Lcv : length (convert_sst_to_ss a1) = length plies) by (unfold convert_sst_to_ss; rewrite map_length; exact R1).
  assert (Fin : forall {A} (l : list (list A)) x, (ref <= length l)%nat -> In x (firstn ref l) -> exists j, (j < ref)%nat /\ nth j l [] = x).
  { clear. intros A l x Ll Hx. destruct (In_nth _ _ [] Hx) as (j & Lj & Ej). rewrite firstn_length in Lj. exists j. split; [lia|].
    rewrite <- Ej. rewrite <- (firstn_skipn ref l) at 1. rewrite app_nth1 by (rewrite firstn_length; lia). reflexivity. }
  split; [|split].
  - unfold symmetry_check. destruct (sym c) eqn:Y; [|reflexivity].
    assert (forallb (fun s => mirror_ok (length s / 2) s) (firstn ref (convert_sst_to_ss a1)) = true) as ->.
    { apply forallb_forall. intros x Hx. destruct (Fin Z (convert_sst_to_ss a1) x ltac:(lia) Hx) as (j & Lj & <-). rewrite Cn. destruct (R3 j ltac:(lia)) as (_ & P & _).
      apply mirror_okay; [apply pal_plies, P, Y|]. apply Nat.div_le_upper_bound; lia. }
    assert (forallb (mirror_ok (n_max plies / 2)) (firstn ref a1) = true) as ->; [|reflexivity].
    apply forallb_forall. intros x Hx. destruct (Fin Z a1 x ltac:(lia) Hx) as (j & Lj & <-). destruct (R3 j ltac:(lia)) as (Lr & P & _).
    apply mirror_okay; [apply P, Y|]. unfold n_max. rewrite <- Lr. unfold zlen. rewrite Nat2Z.id. apply Nat.div_le_upper_bound; lia.
  - unfold lampam_check. apply guard_ok. apply not_true_is_false. intros X. rewrite forallb_forall in X.
    set (j := S ref). assert (Lj : (j < length plies)%nat) by (unfold j; lia).
    apply all_rows_ok in E2. assert (La2 : length a2 = length plies) by (rewrite E2, map_length in K2; exact K2).
    destruct (K5 j Lj) as (lp0 & El0 & Ll0 & G0). specialize (G0 ltac:(unfold j; lia) (Pr j Lj)).
    assert (Elp : nth j a2 [] = lp0). { rewrite E2 in El0. rewrite (nth_indep _ None (Some [])) in El0 by (rewrite map_length; lia). rewrite map_nth in El0. congruence. }
    assert (Da2 : forall x, In x a2 -> length x = D).
    { intros x Hx. destruct (In_nth _ _ [] Hx) as (q & Lq & Eq). destruct (K5 q ltac:(lia)) as (l & E & L & _).
      rewrite E2 in E. rewrite (nth_indep _ None (Some [])) in E by (rewrite map_length; lia). rewrite map_nth in E. congruence. }
    destruct (R3 j Lj) as (_ & P & _).
    assert (PA : forall a, In a (plies_of (nth j a1 [])) -> In a (set_of_angles c)).
    { destruct (JG j (Pr j Lj)) as (rj & Rj & _). destruct (JF j rj Rj) as (_ & _ & X'). apply all_rows_ok in E1. unfold some_row in Rj. rewrite E1 in Rj.
      rewrite (nth_indep _ None (Some [])) in Rj by (rewrite map_length; lia). rewrite map_nth in Rj. assert (rj = nth j a1 []) as <- by congruence. exact X'. }
    destruct (HGE lp0 (lampam (plies_of (nth j a1 []))) G0 (HG _ ltac:(intros Y; apply pal_plies, P, Y) PA) Ll0 (f_lampam _ _ _ _ _ _ Hfit _)) as (z & Lz & Ez).
    specialize (X (nth z lp0 0, nth z (lampam (plies_of (nth j a1 []))) 0)%Q). cbn [fst snd] in X.
    assert (I : In (nth z lp0 0, nth z (lampam (plies_of (nth j a1 []))) 0)%Q (List.combine (concat a2) (concat (map lampam (convert_sst_to_ss a1))))).
    { apply (combine_nth_in _ _ (j * D + z)%nat).
      - rewrite (nth_concat D) by (auto; lia). now rewrite Elp.
      - rewrite (nth_concat D); [|intros x Hx; apply in_map_iff in Hx; destruct Hx as (y & <- & _); apply (f_lampam _ _ _ _ _ _ Hfit)|rewrite map_length; lia|exact Lz].
        rewrite (nth_indep _ [] (lampam [])) by (rewrite map_length; lia). rewrite map_nth, Cn. reflexivity. }
    specialize (X I). apply negb_true_iff in X. apply Qeq_bool_neq in X. contradiction.
  - unfold count_check. apply guard_ok. apply negb_false_iff, forallb_forall. intros j Hj. apply in_seq in Hj. apply Z.eqb_eq.
    rewrite Cn. destruct (R3 j ltac:(lia)) as (_ & _ & P & _). rewrite (P ltac:(lia)). apply Hbase0. lia.
Qed.
End ThickRuns.
