(* Properties_savedrows.v - C91: what the sheets of results say. *)
From Coq Require Import Lqa.
From Verif Require Import Base Uniq Constraints Guidelines SpecGuidelines GuidelinesProofs ConstraintsProofs GateProofs Properties_guidelines
  Spacing Strip Search SearchProofs Objectives Stiffness Final FlexuralProofs Saved Properties_saved.
Local Open Scope Z_scope.

(** ** Specification *)
(** the laminate of a row of the stacking sequence table: -1 marks the dropped plies *)
Definition laminate_of (t s : list Z) : Prop := s = filter (fun x => negb (x =? -1)) t.
Definition stack_of (o : output) (i : nat) : list Z := nth i (w_ss o) [].
Definition table_of (o : output) (i : nat) : list Z := nth i (w_sst o) [].

Lemma row_nth {A} (t : list A) i x : row t i = Ok x <-> nth_error t i = Some x.
Proof. unfold row. destruct (nth_error t i); split; congruence. Qed.
Lemma nth_of {A} (t : list A) i x d : nth_error t i = Some x -> nth i t d = x.
Proof. apply nth_error_nth. Qed.
Lemma mapM_nth {A B} (f : A -> result B) l r i x : mapM f l = Ok r -> nth_error l i = Some x -> exists y, nth_error r i = Some y /\ f x = Ok y.
Proof.
  revert r i. induction l as [|a l IH]; intros r i H N; [destruct i; discriminate|]. cbn in H.
  destruct (f a) as [b|] eqn:E; cbn in H; [|discriminate]. destruct (mapM f l) as [r'|] eqn:E2; cbn in H; [|discriminate]. injection H as <-.
  destruct i as [|i]; cbn in *.
  - injection N as <-. exists b. auto.
  - exact (IH r' i eq_refl N).
Qed.
Lemma nth_error_seq n k i : (i < n)%nat -> nth_error (seq k n) i = Some (k + i)%nat.
Proof. revert k i. induction n as [|n IH]; intros k i L; [lia|]. destruct i; cbn; [f_equal; lia|]. rewrite IH by lia. f_equal. lia. Qed.

Section Rows.
Variables (c : cons) (panels : list spanel) (lampam : list Z -> list Q) (distance : list Q -> Q).

Lemma norm_penalty_at active n i p k q : length n = length panels -> nth_error panels i = Some p -> nth_error n i = Some k ->
  nth_error (norm_penalty panels active n) i = Some q -> (q == if active then inject_Z k / inject_Z (s_plies p) else 0)%Q.
Proof.
  intros L P K. unfold norm_penalty. destruct active; cbn [andb].
  - destruct (existsb _ n) eqn:E.
    + unfold zip_with. intros H. rewrite nth_error_map in H. destruct (nth_error (List.combine _ _) i) as [[x y]|] eqn:C; [|discriminate]. injection H as <-.
      assert (X : nth_error (List.combine (map inject_Z n) (map (fun p => inject_Z (s_plies p)) panels)) i = Some (inject_Z k, inject_Z (s_plies p))).
      { clear - P K. revert n i P K. induction panels as [|a l IH]; intros n i P K; [destruct i; discriminate|]. destruct n as [|b n]; [destruct i; discriminate|].
        destruct i; cbn in *; [congruence|]. now apply IH. }
      rewrite X in C. injection C as <- <-. reflexivity.
    + intros H. rewrite nth_error_map, P in H. injection H as <-.
      assert (k = 0). { destruct (k =? 0) eqn:Z0; [now apply Z.eqb_eq in Z0|]. assert (existsb (fun k => negb (k =? 0)) n = true); [|congruence].
        apply existsb_exists. exists k. split; [exact (nth_error_In _ _ K)|]. now rewrite Z0. }
      subst k. unfold Qdiv. now rewrite Qmult_0_l.
  - intros H. rewrite nth_error_map, P in H. injection H as <-. reflexivity.
Qed.

Lemma sequence_nth {A} (l : list (result A)) r i x : sequence l = Ok r -> nth_error l i = Some x -> exists y, nth_error r i = Some y /\ x = Ok y.
Proof.
  revert r i. induction l as [|a l IH]; intros r i H N; [destruct i; discriminate|]. cbn in H.
  destruct a as [b|]; cbn in H; [|discriminate]. destruct (sequence l) as [r'|] eqn:E2; cbn in H; [|discriminate]. injection H as <-.
  destruct i as [|i]; cbn in *.
  - injection N as <-. exists b. auto.
  - exact (IH r' i eq_refl N).
Qed.
Lemma half_sum_lp l i j q : half_sum l i j = Ok q -> (q == (Qabs (lp l i) + Qabs (lp l j)) / 2)%Q.
Proof.
  unfold half_sum, at_, lp. destruct (nth_error l i) eqn:E1; cbn [bind]; [|discriminate]. destruct (nth_error l j) eqn:E2; cbn [bind]; [|discriminate].
  intros H. injection H as <-. rewrite (nth_of _ _ _ 0%Q E1), (nth_of _ _ _ 0%Q E2). reflexivity.
Qed.

(** a row of the table, in terms of the design of the report *)
Definition tells (o : output) (ind i : nat) (p : spanel) (s t : list Z) (l : line) : Prop :=
  let x := lampam s in
  l_panel l = Z.of_nat i + 1 /\ l_plies l = s_plies p /\ l_ss l = s /\ l_sst l = t /\
  (* the numbers of violations *)
  (Forall (Forall angle_ok) (w_ss o) -> (forall ss, In ss (w_ss o) -> ~ covered_plies c ss []) ->
     forall m, covered_plies c s m -> counts (l_n_diso l) (diso_bad_at (delta_angle c) m)) /\
  ((2 <= n_contig c <= 6)%nat -> forall m, covered_plies c s m -> counts (l_n_contig l) (fun k => block_at (S (n_contig c)) k m)) /\
  (* the penalties *)
  (exists pd pc p10 pi po, l_penalties l = [pd; pc; p10; pi; po] /\
     (pd == if diso c then inject_Z (l_n_diso l) / inject_Z (s_plies p) else 0)%Q /\
     (pc == if contig c then inject_Z (l_n_contig l) / inject_Z (s_plies p) else 0)%Q /\
     (if (rule_10_percent c && rule_10_Abdalla c)%bool then p10 = distance x else calc_penalty_10_ss s c = Ok p10) /\
     (pi == if ipo c then l_ipo l / 2 else 0)%Q /\ (po == if oopo c then l_oopo l / 2 else 0)%Q) /\
  (l_ipo l == Qabs (lp x 2) + Qabs (lp x 3))%Q /\ (l_oopo l == Qabs (lp x 10) + Qabs (lp x 11))%Q /\
  (* ply counts, shares of the row of the table, lamination parameters *)
  (exists p0 p90 p45 p135 pm, l_percent l = [p0; p90; p45; p135; pm] /\
     (p0 == share_of 0 t /\ p90 == share_of 90 t /\ p45 == share_of 45 t /\ p135 == share_of (-45) t /\ pm == share_of 45 t + share_of (-45) t)%Q) /\
  l_counts l = map (fun a => count a t) (set_of_angles c) /\
  (forall k, (k < 12)%nat -> nth k (l_lampam l) 0%Q = lp x k /\ nth k (l_errors l) 0%Q = Qabs (lp (s_target p) k - lp x k)) /\
  length (l_lampam l) = 12%nat /\ length (l_errors l) = 12%nat /\
  (* the values of the layout *)
  (exists v, nth_error (w_obj_no_tab o) ind = Some v /\ nth_error v i = Some (l_obj l)) /\
  (i = 0%nat -> exists a b d, l_top l = Some (a, b, d) /\ nth_error (w_obj_tab o) ind = Some a /\ nth_error (w_calls_tab o) ind = Some b /\ nth_error (w_spacing_tab o) ind = Some d).

Theorem C91_rows : forall o pdl ind ls, length (w_ss o) = length panels ->
  save_one c panels lampam distance o pdl ind = Ok ls ->
  length ls = length panels /\
  forall i p, nth_error panels i = Some p -> exists l, nth_error ls i = Some l /\ tells o ind i p (stack_of o i) (table_of o i) l /\
    (forall t, pdl = Some t -> l_pdl l = nth_error t i).
Proof.
  intros o pdl ind ls Lss H. split; [exact (save_one_length _ _ _ _ _ _ _ _ H)|]. intros i p Hp. revert H. unfold save_one.
  destruct (row (w_obj_tab o) ind) as [obj|] eqn:R1; cbn [bind]; [|discriminate].
  destruct (row (w_calls_tab o) ind) as [calls|] eqn:R2; cbn [bind]; [|discriminate].
  destruct (row (w_spacing_tab o) ind) as [spacing|] eqn:R3; cbn [bind]; [|discriminate].
  destruct (calc_number_violations_diso_mp (w_ss o) c) as [n_diso|] eqn:D1; cbn [bind]; [|discriminate].
  destruct (calc_penalty_contig_mp (w_ss o) c) as [n_contig0|] eqn:D2; cbn [bind]; [|discriminate].
  destruct (mapM _ (seq 0 (length panels))) as [lps|] eqn:D3; cbn [bind]; [|discriminate].
  destruct (penalty_10_mp _ _ _ _) as [pen10|] eqn:D4; cbn [bind]; [|discriminate].
  destruct (calc_penalty_ipo_oopo_mp _ _ _ _ _ _) as [[pi0 po0]|] eqn:D5; cbn [bind]; [|discriminate].
  destruct (row (w_obj_no_tab o) ind) as [obj_no|] eqn:R4; cbn [bind]; [|discriminate].
  intros H. assert (Li : (i < length panels)%nat) by (apply nth_error_Some; congruence).
  destruct (mapM_nth _ _ _ _ _ H (nth_error_seq _ 0 i Li)) as (l & Nl & E). cbn [Nat.add] in E. exists l. split; [exact Nl|]. clear H Nl.
  revert E. destruct (row panels i) as [p'|] eqn:Q1; cbn [bind]; [|discriminate]. apply row_nth in Q1. assert (p' = p) as -> by congruence.
  destruct (row obj_no i) as [ob|] eqn:Q2; cbn [bind]; [|discriminate].
  destruct (row n_diso i) as [nd|] eqn:Q3; cbn [bind]; [|discriminate].
  destruct (row n_contig0 i) as [nc|] eqn:Q4; cbn [bind]; [|discriminate].
  destruct (row lps i) as [x|] eqn:Q5; cbn [bind]; [|discriminate].
  destruct (row (w_sst o) i) as [t|] eqn:Q6; cbn [bind]; [|discriminate].
  destruct (Nat.eqb (length t) 0) eqn:Q7; cbn [guard bind]; [discriminate|].
  destruct (row (norm_penalty _ _ n_diso) i) as [pd|] eqn:Q8; cbn [bind]; [|discriminate].
  destruct (row (norm_penalty _ _ n_contig0) i) as [pc|] eqn:Q9; cbn [bind]; [|discriminate].
  destruct (row pen10 i) as [p10|] eqn:Q10; cbn [bind]; [|discriminate]. cbn [fst snd].
  destruct (row pi0 i) as [pi|] eqn:Q11; cbn [bind]; [|discriminate].
  destruct (row po0 i) as [po|] eqn:Q12; cbn [bind]; [|discriminate].
  destruct (row (w_ss o) i) as [s|] eqn:Q13; cbn [bind]; [|discriminate].
  destruct (match pdl with Some _ => _ | None => _ end) as [drops|] eqn:Q14; cbn [bind]; [|discriminate].
  apply row_nth in R1, R2, R3, R4, Q2, Q3, Q4, Q5, Q6, Q8, Q9, Q10, Q11, Q12, Q13. intros E. injection E as <-.
  unfold stack_of, table_of. rewrite (nth_of _ _ _ [] Q13), (nth_of _ _ _ [] Q6).
  (* the lamination parameters are those of the stack *)
  assert (Ex : x = lampam s).
  { destruct (mapM_nth _ _ _ _ _ D3 (nth_error_seq _ 0 i Li)) as (y & Y1 & Y2). cbn [Nat.add] in Y2. rewrite Q5 in Y1. injection Y1 as <-.
    unfold row in Y2. rewrite Q13 in Y2. cbn in Y2. congruence. }
  assert (Ln1 : length n_diso = length panels).
  { rewrite <- Lss. revert D1. unfold calc_number_violations_diso_mp. destruct (calc_penalty_diso_mp_0 _ _) as [v|] eqn:V; cbn [bind]; [|discriminate]. intros X. injection X as <-.
    rewrite map_length. unfold calc_penalty_diso_mp_0 in V. apply mapM_length in V. rewrite map_length in V. exact V. }
  assert (Ln2 : length n_contig0 = length panels).
  { rewrite <- Lss. revert D2. unfold calc_penalty_contig_mp. destruct (calc_matrix_viol_contig _ _) as [v|] eqn:V; cbn [bind]; [|discriminate]. intros X. injection X as <-.
    rewrite map_length. unfold calc_matrix_viol_contig in V. apply mapM_length in V. rewrite map_length in V. exact V. }
  split; [unfold tells; cbn [l_panel l_plies l_ss l_sst l_n_diso l_n_contig l_penalties l_ipo l_oopo l_counts l_lampam l_errors l_obj l_top]; cbv zeta|].
  2: { intros t0 ->. cbn [l_pdl]. revert Q14. unfold row. destruct (nth_error t0 i); cbn; congruence. }
  do 4 (split; [reflexivity|]). split; [|split; [|split; [|split; [|split; [|split; [|split; [|split; [|split; [|split; [|split]]]]]]]]]].
  - intros A Cv m Hm. destruct (C02_penalty_mp_counts_violations (w_ss o) c A Cv) as (r & E & F). rewrite D1 in E. injection E as <-.
    clear - F Q13 Q3 Hm. revert i Q13 Q3. induction F as [|a b la lb Hab F IH]; intros i Q13 Q3; [destruct i; discriminate|]. destruct i; cbn in *; [|exact (IH i Q13 Q3)].
    injection Q13 as ->. injection Q3 as ->. exact (Hab m Hm).
  - intros K m Hm. destruct (C04_penalty_mp_counts_blocks (w_ss o) c K) as (r & E & F). rewrite D2 in E. injection E as <-.
    clear - F Q13 Q4 Hm. revert i Q13 Q4. induction F as [|a b la lb Hab F IH]; intros i Q13 Q4; [destruct i; discriminate|]. destruct i; cbn in *; [|exact (IH i Q13 Q4)].
    injection Q13 as ->. injection Q4 as ->. exact (Hab m Hm).
  - exists pd, pc, p10, pi, po. split; [reflexivity|].
    split; [exact (norm_penalty_at _ _ _ _ _ _ Ln1 Hp Q3 Q8)|]. split; [exact (norm_penalty_at _ _ _ _ _ _ Ln2 Hp Q4 Q9)|]. split; [|split].
    + revert D4. unfold penalty_10_mp. destruct (rule_10_percent c && rule_10_Abdalla c)%bool.
      * intros X. injection X as <-. rewrite nth_error_map, Q5 in Q10. cbn in Q10. congruence.
      * destruct (Qltb 0 (percent_tot c)); [|discriminate]. intros X. destruct (mapM_nth _ _ _ _ _ X Q13) as (y & Y1 & Y2). congruence.
    + revert D5. unfold calc_penalty_ipo_oopo_mp. destruct (sequence _) as [a|] eqn:S1; cbn [bind]; [|discriminate]. destruct (sequence _) as [b|] eqn:S2 in |-*; cbn [bind]; [|discriminate].
      intros X. injection X as <- <-. rewrite nth_error_map in Q11. destruct (nth_error a i) as [ai|] eqn:Ai; [|discriminate]. injection Q11 as <-.
      assert (Mi : nth_error (map (fun l => if (ipo c && true)%bool then half_sum l 2 3 else Ok 0%Q) lps) i = Some (if (ipo c && true)%bool then half_sum x 2 3 else Ok 0%Q)) by (rewrite nth_error_map, Q5; reflexivity).
      destruct (sequence_nth _ _ _ _ S1 Mi) as (y & Y1 & Y2). rewrite Ai in Y1. injection Y1 as <-. destruct (ipo c); cbn [andb] in Y2.
      * apply half_sum_lp in Y2. rewrite Qmult_1_l. exact Y2.
      * injection Y2 as <-. reflexivity.
    + revert D5. unfold calc_penalty_ipo_oopo_mp. destruct (sequence _) as [a|] eqn:S1; cbn [bind]; [|discriminate]. destruct (sequence _) as [b|] eqn:S2 in |-*; cbn [bind]; [|discriminate].
      intros X. injection X as <- <-. rewrite nth_error_map in Q12. destruct (nth_error b i) as [bi|] eqn:Bi; [|discriminate]. injection Q12 as <-.
      assert (Mi : nth_error (map (fun l => if oopo c then half_sum l 10 11 else Ok 0%Q) lps) i = Some (if oopo c then half_sum x 10 11 else Ok 0%Q)) by (rewrite nth_error_map, Q5; reflexivity).
      destruct (sequence_nth _ _ _ _ S2 Mi) as (y & Y1 & Y2). rewrite Bi in Y1. injection Y1 as <-. destruct (oopo c).
      * apply half_sum_lp in Y2. rewrite Qmult_1_l. exact Y2.
      * injection Y2 as <-. reflexivity.
  - rewrite Ex. reflexivity.
  - rewrite Ex. reflexivity.
  - do 5 eexists. split; [cbn [l_percent]; reflexivity|]. unfold percent, share_of, sumZ, zlen, count. cbn [map fold_right]. rewrite !Z.add_0_r, inject_Z_plus.
    repeat split; try reflexivity. unfold Qdiv. ring.
  - reflexivity.
  - intros k Hk. rewrite <- Ex. clear - Hk. do 12 (destruct k as [|k]; [split; reflexivity|]). lia.
  - reflexivity.
  - reflexivity.
  - exists obj_no. split; [exact R4|exact Q2].
  - intros ->. cbn. exists obj, calls, spacing. auto.
Qed.
End Rows.
Print Assumptions C91_rows.

(* ------------------------------------------------------------------ *)
(** ** which design, which objective *)
(** *** C91: the design of every table is the best design *)
Lemma argmin_nan_all (l : list Q) m : argmin_nan (map Some l) = Ok m -> (m < length l)%nat /\ forall j, (j < length l)%nat -> (nth m l 0 <= nth j l 0)%Q.
Proof.
  intros H. assert (V : first_nan (map Some l) = None /\ values (map Some l) = l).
  { clear H. split; [|induction l; cbn; [reflexivity|now f_equal]]. induction l; cbn; [reflexivity|]. now rewrite IHl. }
  destruct V as [V1 V2]. apply argmin_range. unfold argmin_nan in H. destruct l; [discriminate|]. cbn [map] in *. rewrite V1, V2 in H. exact H.
Qed.
Theorem C91_design : forall panels width ys o, results_of panels width (map Some ys) = Ok o ->
  exists y, nth_error ys (w_ind_mini o) = Some y /\ w_ss o = y_ss y /\ w_sst o = y_sst y /\
    (* it has the smallest objective *)
    (forall y', In y' ys -> (y_obj y <= y_obj y')%Q) /\
    (* the tables of the layouts *)
    (forall i yi, nth_error ys i = Some yi -> nth_error (w_obj_tab o) i = Some (Some (y_obj yi)) /\ nth_error (w_obj_no_tab o) i = Some (map Some (y_obj_panels yi)) /\
       nth_error (w_spacing_tab o) i = Some (Some (y_spacing yi)) /\ nth_error (w_calls_tab o) i = Some (Some (y_calls yi))).
Proof.
  intros panels width ys o. unfold results_of. rewrite map_map. destruct (argmin_nan _) as [m|] eqn:A; cbn [bind]; [|discriminate]. intros H. injection H as <-. cbn.
  assert (E : map (fun x => option_map y_obj (Some x)) ys = map Some (map y_obj ys)) by (rewrite map_map; reflexivity).
  rewrite E in A. apply argmin_nan_all in A. rewrite map_length in A. destruct A as [Lm Min].
  destruct (nth_error ys m) as [y|] eqn:N; [|apply nth_error_None in N; lia]. exists y. split; [reflexivity|]. rewrite !map_map.
  split; [|split; [|split]].
  - apply nth_of. now rewrite nth_error_map, N.
  - apply nth_of. now rewrite nth_error_map, N.
  - intros y' I. apply In_nth_error in I. destruct I as [j J]. assert (Lj : (j < length ys)%nat) by (apply nth_error_Some; congruence). specialize (Min j Lj).
    assert (X : forall k z, nth_error ys k = Some z -> nth k (map y_obj ys) 0%Q = y_obj z) by (intros k z Z1; apply nth_of; now rewrite nth_error_map, Z1).
    now rewrite (X _ _ N), (X _ _ J) in Min.
  - intros i yi I. rewrite !nth_error_map, I. auto.
Qed.

Section Sheets.
Variables (c : cons) (panels : list spanel) (lampam : list Z -> list Q) (distance : list Q -> Q).

(** *** C91: the table of a layout gives the objective of the layout with the stacks of the best one *)
Theorem C91_layout_table : forall width ys o pdl ind ls y yi, results_of panels width (map Some ys) = Ok o ->
  nth_error ys (w_ind_mini o) = Some y -> nth_error ys ind = Some yi -> length (y_ss y) = length panels -> length (y_obj_panels yi) = length panels ->
  save_one c panels lampam distance o pdl ind = Ok ls ->
  forall i l, nth_error ls i = Some l ->
    l_ss l = nth i (y_ss y) [] /\ l_sst l = nth i (y_sst y) [] /\ nth_error (map Some (y_obj_panels yi)) i = Some (l_obj l) /\
    (i = 0%nat -> l_top l = Some (Some (y_obj yi), Some (y_calls yi), Some (y_spacing yi))).
Proof.
  intros width ys o pdl ind ls y yi R N Ni Ly Lo S1 i l Nl. destruct (C91_design _ _ _ _ R) as (y0 & N0 & E1 & E2 & _ & T). rewrite N in N0. injection N0 as <-.
  assert (Lss : length (w_ss o) = length panels) by (rewrite E1; exact Ly).
  destruct (C91_rows c panels lampam distance o pdl ind ls Lss S1) as [L F].
  assert (Li : (i < length panels)%nat) by (rewrite <- L; apply nth_error_Some; congruence).
  destruct (nth_error panels i) as [p|] eqn:P; [|apply nth_error_None in P; lia]. destruct (F i p P) as (l' & Nl' & X & _). rewrite Nl in Nl'. injection Nl' as <-.
  unfold tells in X. cbv zeta in X. destruct X as (_ & _ & X3 & X4 & _ & _ & _ & _ & _ & _ & _ & _ & _ & _ & (v & V1 & V2) & X5).
  destruct (T ind yi Ni) as (T1 & T2 & T3 & T4). unfold stack_of, table_of in *. rewrite E1 in X3. rewrite E2 in X4.
  split; [exact X3|]. split; [exact X4|]. split; [rewrite T2 in V1; injection V1 as <-; exact V2|].
  intros I0. destruct (X5 I0) as (a & b & d & Et & A & B & D). rewrite T1 in A. rewrite T4 in B. rewrite T3 in D. congruence.
Qed.

(** *** C91: with one layout the two sheets show the design and its objective *)
Theorem C91_single_layout_partial : forall width y o pdl ls, results_of panels width [Some y] = Ok o ->
  length (y_ss y) = length panels -> length (y_obj_panels y) = length panels ->
  save_one c panels lampam distance o pdl 0 = Ok ls ->
  forall i l, nth_error ls i = Some l ->
    l_ss l = nth i (y_ss y) [] /\ l_sst l = nth i (y_sst y) [] /\ l_obj l = Some (nth i (y_obj_panels y) 0%Q) /\
    (i = 0%nat -> l_top l = Some (Some (y_obj y), Some (y_calls y), Some (y_spacing y))).
Proof.
  intros width y o pdl ls R Ly Lo S1 i l Nl. destruct (C91_design panels width [y] o R) as (y0 & N0 & _ & _ & _ & _).
  assert (M : w_ind_mini o = 0%nat) by (destruct (w_ind_mini o) as [|[|k]]; [reflexivity|discriminate|discriminate]). rewrite M in N0. injection N0 as <-.
  destruct (C91_layout_table width [y] o pdl 0 ls y y R ltac:(rewrite M; reflexivity) eq_refl Ly Lo S1 i l Nl) as (A & B & D & E).
  split; [exact A|]. split; [exact B|]. split; [|exact E]. rewrite nth_error_map in D. destruct (nth_error (y_obj_panels y) i) as [q|] eqn:Q1; [|discriminate].
  cbn in D. rewrite (nth_of _ _ _ 0%Q Q1). congruence.
Qed.

(* ------------------------------------------------------------------ *)
(** ** plies and percentages *)
(** *** C91: ply counts are those of the laminate; percentages are taken over the width of the table *)
Lemma count_filter a t : a <> -1 -> count a (filter (fun x => negb (x =? -1)) t) = count a t.
Proof.
  intros N. unfold count. induction t as [|x t IH]; cbn [filter]; [reflexivity|]. destruct (x =? -1) eqn:E; cbn [negb].
  - apply Z.eqb_eq in E. rewrite (count_occ_cons_neq Z.eq_dec) by lia. exact IH.
  - destruct (Z.eq_dec x a) as [->|D].
    + rewrite !count_occ_cons_eq by reflexivity. lia.
    + rewrite !count_occ_cons_neq by auto. exact IH.
Qed.
Theorem C91_counts : forall t s a, laminate_of t s -> a <> -1 -> count a t = Z.of_nat (count_occ Z.eq_dec s a).
Proof. intros t s a -> N. rewrite <- (count_filter a t N). reflexivity. Qed.
(** the shares of a panel that has all the plies of the table *)
Theorem C91_shares : forall t s a, laminate_of t s -> ~ In (-1) t -> share_of a t = share_of a s.
Proof.
  intros t s a -> N. f_equal. assert (E : filter (fun x => negb (x =? -1)) t = t); [|now rewrite E].
  induction t as [|x t IH]; cbn; [reflexivity|]. destruct (x =? -1) eqn:X; [apply Z.eqb_eq in X; elim N; now left|]. cbn. f_equal. apply IH. intros I. elim N. now right.
Qed.
(** refuted: for a panel with dropped plies every share that is not zero is reported too small *)
Theorem C91_shares_refuted : forall t s a, laminate_of t s -> In (-1) t -> a <> -1 -> In a s -> (share_of a t < share_of a s)%Q.
Proof.
  intros t s a H I N Ia. unfold share_of. pose proof (C91_counts t s a H N) as Cn. unfold count in Cn. apply Nat2Z.inj in Cn. rewrite Cn.
  assert (P : (0 < count_occ Z.eq_dec s a)%nat) by (apply count_occ_In; exact Ia).
  assert (L : (length s < length t)%nat).
  { rewrite H. clear - I. induction t as [|x t IH]; [destruct I|]. cbn. destruct (x =? -1) eqn:X; cbn.
    - assert ((length (filter (fun x => negb (x =? -1)%Z) t) <= length t)%nat); [|lia]. clear. induction t; cbn; [lia|]. destruct (negb _); cbn; lia.
    - destruct I as [I|I]; [apply Z.eqb_neq in X; congruence|]. specialize (IH I). lia. }
  assert (Ls : (0 < length s)%nat) by (destruct s; [destruct Ia|cbn; lia]).
  set (k := count_occ Z.eq_dec s a) in *. clearbody k. set (m := length s) in *. set (n := length t) in *. clearbody m n.
  assert (0 < inject_Z (Z.of_nat m))%Q by (unfold Qlt, inject_Z; cbn; lia). assert (0 < inject_Z (Z.of_nat n))%Q by (unfold Qlt, inject_Z; cbn; lia).
  apply Qlt_shift_div_l; [assumption|]. setoid_replace (inject_Z (Z.of_nat k) / inject_Z (Z.of_nat n) * inject_Z (Z.of_nat m))%Q with (inject_Z (Z.of_nat k) * inject_Z (Z.of_nat m) / inject_Z (Z.of_nat n))%Q by (field; lra).
  apply Qlt_shift_div_r; [assumption|]. rewrite <- !inject_Z_mult. unfold Qlt, inject_Z; cbn. nia.
Qed.

(* ------------------------------------------------------------------ *)
(** ** runs that cannot be saved *)
Lemma no_ten_percent o pdl ind : (rule_10_percent c && rule_10_Abdalla c)%bool = false -> ~ (0 < percent_tot c)%Q -> exists e, save_one c panels lampam distance o pdl ind = Err e.
Proof.
  intros A P. unfold save_one. repeat match goal with |- exists e, (do x <- ?X; _) = _ => lazymatch X with penalty_10_mp _ _ _ _ => fail | _ => destruct X; cbn [bind]; [|eauto] end end.
  unfold penalty_10_mp. rewrite A. destruct (Qltb 0 (percent_tot c)) eqn:E; [|cbn; eauto]. apply Qltb_lt in E. contradiction.
Qed.
Lemma appends_until {A} load (L : forall i, load i = Loads) h n (e : exn) after : forall (f : file A) k, no_empty_sheet f -> blocks_ok h ->
  exists g, appends load k f (computed h ++ (n, Err e) :: after) = (g, Some e) /\ extended f h g.
Proof.
  induction h as [|[m s] h IH]; intros f k F B.
  - exists f. split; [reflexivity|apply extended_nil].
  - inversion B as [|? ? N B']; subst. cbn in N. cbn. rewrite L. destruct (append_extends f m s F N) as (g & -> & E & G).
    destruct (IH g (S k) G B') as (h' & R & E2). exists h'. split; [exact R|exact (extended_trans _ _ _ _ _ E E2)].
Qed.
(** the first table of the results cannot be computed *)
Lemma first_table_fails f answer load n_max (setup : sheet -> list (list cell)) o pdls g x :
  (forall s, setup s <> []) -> (forall i, load i = Loads) -> f = NoFile \/ In answer yes_words ->
  (exists n e after, match mapM (fit n_max) pdls with Err e => [(SResults, Err e)] | Ok pdls' => save_steps c panels lampam distance o (length (w_obj_tab o)) pdls' end = (n, Err e) :: after) ->
  bella_file c panels lampam distance f answer load n_max setup (Ok (o, pdls)) = (g, x) ->
  (exists e, x = Failed e) /\ content g SResults = None /\ content g SBest = None /\ (forall s, setup_sheet s = true -> content g s = Some (setup s)).
Proof.
  intros Hs L Hf (n & e & after & E) H. unfold bella_file in H.
  assert (D : delete_file f answer = Some NoFile). { destruct (C90_delete cell f answer) as (D1 & D2 & _). destruct f; [auto|]. destruct Hf as [Hf|Hf]; [discriminate|]. apply D2; [discriminate|exact Hf]. }
  rewrite D, E in H. set (h := map (fun s => (s, setup s)) [SConstraints; SMaterials; SParameters; SObjective; SMultipanel; SPanels]).
  assert (B : blocks_ok h) by (apply Forall_forall; intros q I; apply in_map_iff in I; destruct I as (s & <- & _); apply Hs).
  assert (F0 : no_empty_sheet (@NoFile cell)) by (intros ? ?; discriminate).
  destruct (appends_until load L h n e after NoFile 0%nat F0 B) as (g' & R & X). unfold setup_steps in H. 
  change (map (fun s => (s, Ok (setup s))) [SConstraints; SMaterials; SParameters; SObjective; SMultipanel; SPanels]) with (computed h) in H. rewrite R in H. injection H as <- <-.
  split; [exists e; reflexivity|]. split; [|split].
  - apply X. split; [reflexivity|]. cbn. intuition discriminate.
  - apply X. split; [reflexivity|]. cbn. intuition discriminate.
  - intros s Es. destruct (X s) as [X1 X2]. assert (X3 : rows_on g' s = setup s) by (rewrite X1; destruct s; try discriminate; cbn; rewrite ?app_nil_r; reflexivity).
    unfold rows_on in X3. destruct (content g' s); [now subst|]. exfalso. apply (proj2 (proj1 X2 eq_refl)). destruct s; try discriminate; cbn; tauto.
Qed.
(** refuted: a run without percentages of the 10% rule always ends with an exception; the file
    holds the set-up but no result *)
Theorem C91_without_ten_percent_refuted : forall f answer load n_max setup o pdls g x,
  (forall s, setup s <> []) -> (forall i, load i = Loads) ->
  (rule_10_percent c && rule_10_Abdalla c)%bool = false -> ~ (0 < percent_tot c)%Q ->
  f = NoFile \/ In answer yes_words ->
  bella_file c panels lampam distance f answer load n_max setup (Ok (o, pdls)) = (g, x) ->
  (exists e, x = Failed e) /\ content g SResults = None /\ content g SBest = None /\ (forall s, setup_sheet s = true -> content g s = Some (setup s)).
Proof.
  intros f answer load n_max setup o pdls g x Hs L A P Hf H. refine (first_table_fails _ _ _ _ _ _ _ _ _ Hs L Hf _ H).
  destruct (mapM (fit n_max) pdls) as [pdls'|e]; [|eauto]. unfold save_steps. destruct (length (w_obj_tab o)) as [|k]; cbn [seq map app].
  - destruct (row pdls' _) as [pdl|e]; cbn [bind]; [|eauto]. destruct (no_ten_percent o (Some pdl) 0 A P) as [e ->]. cbn [bind]. eauto.
  - destruct (row pdls' _) as [pdl|e]; cbn [bind]; [|eauto]. destruct (no_ten_percent o (Some pdl) 0 A P) as [e ->]. cbn [bind]. eauto.
Qed.
(** refuted: so does a run in which a layout has one column more than the thickest panel has plies
    (a symmetric structure with panels of odd ply counts and an even maximum) *)
Theorem C91_extra_column_refuted : forall f answer load n_max setup o pdls pdl r g x,
  (forall s, setup s <> []) -> (forall i, load i = Loads) -> f = NoFile \/ In answer yes_words ->
  In pdl pdls -> In r pdl -> length r = S n_max -> (0 < n_max)%nat ->
  bella_file c panels lampam distance f answer load n_max setup (Ok (o, pdls)) = (g, x) ->
  (exists e, x = Failed e) /\ content g SResults = None /\ content g SBest = None /\ (forall s, setup_sheet s = true -> content g s = Some (setup s)).
Proof.
  intros f answer load n_max setup o pdls pdl r g x Hs L Hf Ip Ir Lr Pn H. refine (first_table_fails _ _ _ _ _ _ _ _ _ Hs L Hf _ H).
  destruct (mapM (fit n_max) pdls) as [pdls'|e] eqn:E; [|eauto]. exfalso.
  apply In_nth_error in Ip. destruct Ip as [i Ip]. destruct (mapM_nth _ _ _ _ _ E Ip) as (y & _ & Y). unfold fit in Y.
  destruct (forallb _ pdl) eqn:F1 in Y.
  - rewrite forallb_forall in F1. specialize (F1 r Ir). apply Nat.eqb_eq in F1. lia.
  - destruct (forallb _ pdl) eqn:F2 in Y; [|discriminate]. rewrite forallb_forall in F2. specialize (F2 r Ir). apply Nat.eqb_eq in F2. lia.
Qed.
End Sheets.

(** refuted: when a layout has no result the reported design is made of 0 degree plies only *)
Theorem C91_void_design_refuted : forall panels width l o, In None l -> results_of panels width l = Ok o ->
  w_ss o = map (fun p => repeat 0 (Z.to_nat (s_plies p))) panels.
Proof.
  intros panels width l o I. unfold results_of. destruct (argmin_nan _) as [m|] eqn:A; cbn [bind]; [|discriminate]. intros H. injection H as <-. cbn.
  apply nth_of. rewrite nth_error_map.
  assert (E : nth_error l m = Some None); [|now rewrite E].
  assert (G : exists k, first_nan (map (option_map y_obj) l) = Some k /\ nth_error l k = Some None).
  { clear A. induction l as [|[y|] l IH]; [destruct I| |exists 0%nat; split; reflexivity]. destruct I as [I|I]; [discriminate|]. destruct (IH I) as (k & K1 & K2).
    exists (S k). cbn. rewrite K1. auto. }
  destruct G as (k & K1 & K2). rewrite (argmin_nan_at _ _ K1) in A. congruence.
Qed.

(** *** examples *)
Definition ex_panels : list spanel := [ {| s_plies := 4; s_target := repeat 0%Q 12 |}; {| s_plies := 2; s_target := repeat 0%Q 12 |} ].
Definition ex_lampam (s : list Z) : list Q := map (fun i => (inject_Z (Z.of_nat i) / inject_Z (zlen s))%Q) (seq 0 12).
Definition ex_y1 : entry := {| y_ss := [[0; 0; 0; 0]; [0; 0]]; y_sst := [[0; 0; 0; 0]; [0; -1; -1; 0]]; y_obj := 2; y_obj_panels := [1%Q; 1%Q]; y_spacing := 0; y_calls := 10 |}.
Definition ex_y2 : entry := {| y_ss := [[0; 90; 90; 0]; [0; 0]]; y_sst := [[0; 90; 90; 0]; [0; -1; -1; 0]]; y_obj := 1; y_obj_panels := [1 # 2; 1 # 2]%Q; y_spacing := 0; y_calls := 20 |}.
Definition ex_pdl : list (list Z) := [[0; 1; 2; 3]; [0; -1; -1; 3]].
Definition args_saved : cargs := {|
  a_sym := true; a_bal := false; a_oopo := false; a_dam_tol := false;
  a_rule_10_percent := true; a_rule_10_Abdalla := false; a_percent_Abdalla := 0;
  a_combine_45_135 := true; a_calc_combine_45_135 := true;
  a_percent_0 := 10; a_percent_45 := 0; a_percent_90 := 10; a_percent_135 := 0;
  a_percent_45_135 := 0;
  a_diso := true; a_contig := true; a_n_contig := 3; a_delta_angle := 45;
  a_dam_tol_rule := 1; a_set_of_angles := [0; 45; 90; -45]; a_min_drop := 2;
  a_pdl_spacing := false; a_covering := false; a_n_covering := 1 |}.
Definition ex_setup (s : sheet) : list (list cell) := [[Title 0]].

(** two layouts, the second one better: the run ends, whatever the answer was about an older file *)
Example C91_example : exists c o g, mk_cons args_saved = Ok c /\ results_of ex_panels 4 [Some ex_y1; Some ex_y2] = Ok o /\ length (w_ss o) = length ex_panels /\ w_ind_mini o = 1%nat /\
  bella_file c ex_panels ex_lampam (fun _ => 0%Q) (File [(SBest, [[NaN]])]) [121] (fun _ => Loads) 4 ex_setup (Ok (o, [ex_pdl; ex_pdl])) = (g, Finished) /\
  length (rows_on g SResults) = 6%nat /\ length (rows_on g SBest) = 3%nat.
Proof. do 3 eexists. split; [vm_compute; reflexivity|]. split; [vm_compute; reflexivity|]. split; [reflexivity|]. split; [reflexivity|]. split; [vm_compute; reflexivity|]. split; vm_compute; reflexivity. Qed.

(** refuted: on the sheet of the layouts the first layout is shown with the stacks of the second
    one, and the sheet of the best result shows the objective of the first layout *)
Theorem C91_sheets_refuted : exists c o ls best, mk_cons args_saved = Ok c /\ results_of ex_panels 4 [Some ex_y1; Some ex_y2] = Ok o /\
  (* the best layout is the second one, with the objective 1 *)
  w_ind_mini o = 1%nat /\ w_ss o = y_ss ex_y2 /\
  (* the table of the first layout: its objective, not its stacks *)
  save_one c ex_panels ex_lampam (fun _ => 0%Q) o (Some ex_pdl) 0 = Ok ls /\ option_map l_top (nth_error ls 0) = Some (Some (Some 2%Q, Some 10, Some 0%Q)) /\
  map l_ss ls = y_ss ex_y2 /\ map l_ss ls <> y_ss ex_y1 /\
  (* the table of the best result: its stacks, not its objective *)
  save_one c ex_panels ex_lampam (fun _ => 0%Q) o (Some ex_pdl) 0 = Ok best /\ map l_ss best = y_ss ex_y2 /\
  option_map l_top (nth_error best 0) = Some (Some (Some (y_obj ex_y1), Some 10, Some 0%Q)) /\ ~ (y_obj ex_y1 == y_obj ex_y2)%Q /\
  (* and the shares of the panel that drops two plies do not add up to one *)
  (exists l, nth_error best 1 = Some l /\ sumQ (firstn 4 (l_percent l)) == 1 # 2)%Q.
Proof.
  do 4 eexists. split; [vm_compute; reflexivity|]. split; [vm_compute; reflexivity|]. split; [reflexivity|]. split; [reflexivity|]. split; [vm_compute; reflexivity|].
  split; [reflexivity|]. split; [reflexivity|]. split; [discriminate|]. split; [vm_compute; reflexivity|]. split; [reflexivity|]. split; [reflexivity|]. split; [discriminate|].
  eexists. split; [reflexivity|]. vm_compute. reflexivity.
Qed.
(** the same run without the 10% rule *)
Example C91_without_ten_percent_example : exists c o g e,
  mk_cons {| a_sym := true; a_bal := false; a_oopo := false; a_dam_tol := false;
    a_rule_10_percent := false; a_rule_10_Abdalla := false; a_percent_Abdalla := 0;
    a_combine_45_135 := true; a_calc_combine_45_135 := true;
    a_percent_0 := 10; a_percent_45 := 0; a_percent_90 := 10; a_percent_135 := 0; a_percent_45_135 := 0;
    a_diso := true; a_contig := true; a_n_contig := 3; a_delta_angle := 45;
    a_dam_tol_rule := 1; a_set_of_angles := [0; 45; 90; -45]; a_min_drop := 2;
    a_pdl_spacing := false; a_covering := false; a_n_covering := 1 |} = Ok c /\
  (rule_10_percent c && rule_10_Abdalla c)%bool = false /\ ~ (0 < percent_tot c)%Q /\
  results_of ex_panels 4 [Some ex_y1; Some ex_y2] = Ok o /\
  bella_file c ex_panels ex_lampam (fun _ => 0%Q) NoFile [] (fun _ => Loads) 4 ex_setup (Ok (o, [ex_pdl; ex_pdl])) = (g, Failed e) /\ rows_on g SResults = [] /\ rows_on g SParameters = [[Title 0]].
Proof.
  do 4 eexists. split; [vm_compute; reflexivity|]. split; [reflexivity|]. split; [intros H; vm_compute in H; discriminate|]. split; [vm_compute; reflexivity|].
  split; [vm_compute; reflexivity|]. split; reflexivity.
Qed.
Print Assumptions C91_design.
Print Assumptions C91_layout_table.
Print Assumptions C91_single_layout_partial.
Print Assumptions C91_counts.
Print Assumptions C91_shares.
Print Assumptions C91_shares_refuted.
Print Assumptions C91_without_ten_percent_refuted.
Print Assumptions C91_extra_column_refuted.
Print Assumptions C91_void_design_refuted.
Print Assumptions C91_sheets_refuted.
