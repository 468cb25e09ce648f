(* Properties_pdlini.v - property theorem C51: the initial ply-drop layout of a structure. *)
From Coq Require Import Permutation.
From Verif Require Import Base Uniq Divers Strip Spacing SpacingProofs Format FormatProofs PdlTools PdlToolsProofs Search SearchProofs PdlGroup PdlGroupProofs Properties_pdlgroup Divide DivideProofs Properties_divide PdlIni PdlIniProofs.
Local Open Scope Z_scope.

(* ------------------------------------------------------------------ *)
(** ** Specification *)

(** a structure of panels with [ns] plies, divided into groups of plies *)
Record divided (sym : bool) (g : sizes) (ns : list Z) (a : ini_args) : Prop := {
  dv_sizes : 1 <= g_min g <= g_max g;
  dv_cov : (i_covering a <= 2)%nat;
  dv_thickest : exists groups, divide_thickest sym g (Z.of_nat (i_max a) - 2 * Z.of_nat (i_covering a)) = Ok (groups, i_sizes a);
  dv_panels : Forall2 (fun n p => plies_per_group (Z.to_nat (g_max g - g_min g + 1)) sym g (Z.of_nat (i_max a)) n (i_sizes a) = Ok p) ns (i_panels a);
  dv_counts : forall n, In n ns -> 2 * Z.of_nat (i_covering a) <= n <= Z.of_nat (i_max a);
  dv_some : ns <> [] }.

(** the draws of every group are those of random.sample: the numbers of drops of the group
    are the differences between its size and the plies of the panels in it *)
Definition draws_ok (a : ini_args) (rnd : randomness) : Prop :=
  forall g d, (g < length (i_sizes a))%nat -> In d (fst (rnd g)) ->
    draw_ok false false (Z.to_nat (nth g (i_sizes a) 0)) (uniq (map (fun p => nth g (i_sizes a) 0 - nth g p 0) (i_panels a))) d.

(** number of plies kept in a row *)
Definition n_kept (r : list Z) : Z := zlen r - n_dropped r.

(** the layout of the structure: one row per panel, as wide as the thickest panel, with as
    many plies as the panel; the covering plies are never dropped; a panel with at most as
    many plies in every group drops the same plies and perhaps more *)
Record structure_layout (ns : list Z) (a : ini_args) (pdl : list (list Z)) : Prop := {
  sl_rows : length pdl = length ns;
  sl_width : forall i, (i < length ns)%nat -> length (nth i pdl []) = i_max a;
  sl_plies : forall i, (i < length ns)%nat -> n_kept (nth i pdl []) = nth i ns 0;
  sl_covering : forall i j, (i < length ns)%nat -> (j < i_covering a)%nat ->
    nth j (nth i pdl []) (-1) <> -1 /\ nth (i_max a - 1 - j) (nth i pdl []) (-1) <> -1;
  sl_nested : forall i k, (i < length ns)%nat -> (k < length ns)%nat ->
    (forall g, (g < length (i_sizes a))%nat -> nth g (nth k (i_panels a) []) 0 <= nth g (nth i (i_panels a) []) 0) ->
    forall j, nth j (nth i pdl []) 0 = -1 -> nth j (nth k pdl []) 0 = -1 }.

Lemma n_kept_countb r : n_kept r = Z.of_nat (countb kept r).
Proof. unfold n_kept, zlen. rewrite <- dropped_count. pose proof (kept_dropped r). lia. Qed.

Lemma divided_fits sym g ns a : divided sym g ns a ->
  fits a /\ Forall2 (fun n p => if sym then 2 * Z.of_nat (i_covering a) + 2 * sumZ p + n mod 2 = n else 2 * Z.of_nat (i_covering a) + sumZ p = n) ns (i_panels a)
  /\ i_panels a <> [].
Proof.
  intros [G C [grp T] P B N].
  assert (X : forall ns ps, (forall n, In n ns -> 2 * Z.of_nat (i_covering a) <= n <= Z.of_nat (i_max a)) ->
     Forall2 (fun n p => plies_per_group (Z.to_nat (g_max g - g_min g + 1)) sym g (Z.of_nat (i_max a)) n (i_sizes a) = Ok p) ns ps ->
     (forall p, In p ps -> Forall2 (fun s x => 0 <= x <= s) (i_sizes a) p) /\
     Forall2 (fun n p => if sym then 2 * Z.of_nat (i_covering a) + 2 * sumZ p + n mod 2 = n else 2 * Z.of_nat (i_covering a) + sumZ p = n) ns ps).
  { intros ns' ps Bn H. induction H as [|n p ns' ps E _ IH]; [split; [intros p []|constructor]|].
    destruct (C19_plies_per_group sym g _ _ n grp (i_sizes a) G T (Bn n (or_introl eq_refl))) as [p' [E' [Q S]]].
    assert (p' = p) by congruence. subst p'. destruct IH as [I1 I2]; [intros; apply Bn; right; auto|].
    split; [intros q [<-|Hq]; auto|constructor; auto]. }
  destruct (X _ _ B P) as [X1 X2]. split; [exact X1|]. split; [exact X2|].
  intros E. rewrite E in P. inversion P; subst. congruence.
Qed.

Lemma thickest_sum sym g ns a : divided sym g ns a ->
  sumZ (i_sizes a) = if sym then (Z.of_nat (i_max a) - 2 * Z.of_nat (i_covering a)) / 2 else Z.of_nat (i_max a) - 2 * Z.of_nat (i_covering a).
Proof.
  intros [G C [grp T] P B N].
  destruct (divide_ok sym g (Z.of_nat (i_max a) - 2 * Z.of_nat (i_covering a)) G) as [x [y [E2 [_ [D _]]]]].
  - destruct (Classical_div sym g (Z.of_nat (i_max a) - 2 * Z.of_nat (i_covering a)) G) as [H|H]; auto.
    destruct (divide_err sym g _ G H); congruence.
  - assert (y = i_sizes a) by congruence. subst. apply D.
Qed.

Lemma cut_small c : (c <= 2)%nat -> cut c = c.
Proof. destruct c as [|[|[|c]]]; intros; cbn; lia. Qed.

Lemma nth_repeat_lt {A} (x d : A) n k : (k < n)%nat -> nth k (repeat x n) d = x.
Proof. revert k; induction n as [|n IH]; intros [|k] H; cbn; try lia; auto. apply IH; lia. Qed.

Lemma covering_kept_line c n i : (i < n)%nat -> (c <= 2)%nat ->
  length (panel_line (tables [covering_pdl c n]) i) = c /\ countb kept (panel_line (tables [covering_pdl c n]) i) = c /\
  forall k, (k < n)%nat -> thinner (panel_line (tables [covering_pdl c n]) i) (panel_line (tables [covering_pdl c n]) k).
Proof.
  intros Hi Hc. destruct c as [|[|[|c]]]; try lia; cbn [covering_pdl tables flat_map app]; unfold panel_line; cbn [map concat].
  - repeat split. constructor.
  - rewrite !app_nil_r. assert (E : forall k, (k < n)%nat -> nth k (repeat [0] n) [] = [0]) by (intros; apply nth_repeat_lt; auto).
    rewrite E by auto. repeat split. intros k Hk. rewrite app_nil_r, E by auto. repeat constructor. auto.
  - rewrite !app_nil_r. assert (E : forall k, (k < n)%nat -> nth k (repeat [0; 1] n) [] = [0; 1]) by (intros; apply nth_repeat_lt; auto).
    rewrite E by auto. repeat split. intros k Hk. rewrite app_nil_r, E by auto. repeat constructor; auto.
Qed.

Lemma all_kept_prefix l m j : countb kept l = length l -> (j < length l)%nat -> kept (nth j (l ++ m) (-1)) = true.
Proof.
  intros H Hj. rewrite app_nth1 by auto. revert j Hj. induction l as [|x l IH]; intros j Hj; cbn [length] in *; [lia|].
  rewrite countb_cons in H. assert (B : forall l, (countb kept l <= length l)%nat) by (intros; pose proof (kept_dropped l0); lia).
  specialize (B l). destruct (kept x) eqn:E; [|lia]. destruct j; cbn [nth]; auto. apply IH; lia.
Qed.

Lemma renumber_kept_nth k l j : 0 <= k -> (j < length l)%nat -> kept (nth j (renumber k l) (-1)) = kept (nth j l (-1)).
Proof.
  intros Hk Hj. pose proof (renumber_kept k l Hk) as E.
  pose proof (f_equal (fun x => nth j x (kept (-1))) E) as E2. cbv beta in E2. rewrite !map_nth in E2. exact E2.
Qed.

Lemma kept_neq x : kept x = true -> x <> -1.
Proof. intros H ->. discriminate H. Qed.

(* ------------------------------------------------------------------ *)
(** ** C51 *)

(** symmetric laminates with an even number of plies in every panel: whatever the random
    draws and the time-outs, a returned layout is one of the structure, and every row is its
    own mirror image *)
Theorem C51_symmetric_partial : forall g ns a rnd pdl,
  divided true g ns a -> draws_ok a rnd -> i_has_middle a = false ->
  Z.even (Z.of_nat (i_max a)) = true -> (forall n, In n ns -> Z.even n = true) ->
  create_initial_pdl a true rnd = Ok pdl ->
  structure_layout ns a pdl /\ forall r, In r pdl -> rev r = r.
Proof.
  intros g ns a rnd pdl D R M Emax En H.
  destruct (divided_fits _ _ _ _ D) as [F [SP N]]. pose proof (thickest_sum _ _ _ _ D) as T. cbv iota in T, SP.
  pose proof (dv_cov _ _ _ _ D) as Hc. pose proof (Forall2_len _ _ _ SP) as Ln.
  unfold create_initial_pdl in H. cbv zeta in H. set (n := length (i_panels a)) in *.
  set (cov := covering_pdl (i_covering a) n) in *.
  destruct (sym_groups a rnd cov 0 (length (i_sizes a))) as [ts|] eqn:E; cbn [bind] in H; [|discriminate].
  pose proof (sym_groups_ok a rnd F R N M _ _ _ _ (Nat.add_0_l _) E) as G.
  assert (Hn : (0 < n)%nat) by (subst n; destruct (i_panels a); [congruence|cbn; lia]).
  assert (TT : tables (cov :: map Some ts) = tables [cov] ++ ts).
  { change (cov :: map Some ts) with ([cov] ++ map Some ts). rewrite tables_app. f_equal.
    clear. induction ts as [|t ts IH]; [reflexivity|]. cbn [map tables flat_map app]. f_equal. exact IH. }
  assert (TO : tables_ok n (tables (cov :: map Some ts))).
  { rewrite TT. apply tables_ok_app. split; [apply covering_tables; auto|]. exact (gtables_ok a _ _ G). }
  rewrite global_sym in H by (cbn [d_panels d_middle]; auto; rewrite M; discriminate). cbn [d_panels d_middle d_max] in H. rewrite M in H.
  set (line := fun i => panel_line (tables (cov :: map Some ts)) i) in *.
  assert (LL : forall i, (i < n)%nat -> line i = panel_line (tables [cov]) i ++ panel_line ts i) by (intros; unfold line; rewrite TT, panel_line_app; auto).
  assert (Pos : forall s, In s (seq 0 (length (i_sizes a))) -> 0 <= size_of a s).
  { intros s Hs. apply in_seq in Hs. pose proof (fits_nth a 0 s F Hn ltac:(lia)). lia. }
  assert (SumN : Z.of_nat (sumN (map (fun g => Z.to_nat (size_of a g)) (seq 0 (length (i_sizes a))))) = sumZ (i_sizes a)).
  { rewrite sumN_Z by auto. apply sum_seq. }
  assert (MaxE : Z.of_nat (i_max a) = 2 * (Z.of_nat (i_covering a) + sumZ (i_sizes a))).
  { apply Z.even_spec in Emax. destruct Emax as [m Em]. rewrite T.
    replace (Z.of_nat (i_max a) - 2 * Z.of_nat (i_covering a)) with ((m - Z.of_nat (i_covering a)) * 2) by lia.
    rewrite Z.div_mul by lia. lia. }
  assert (LW : forall i, (i < n)%nat -> (2 * length (line i) = i_max a)%nat).
  { intros i Hi. rewrite LL, app_length by auto. rewrite (line_length a _ ts i Hi G).
    destruct (covering_kept_line (i_covering a) n i Hi Hc) as [X [_ _]]. fold cov in X. lia. }
  destruct (_ || _)%bool; [|discriminate]. injection H as <-.
  assert (Row : forall i, (i < n)%nat -> nth i (map (fun i => sym_row false (line i)) (seq 0 n)) [] = sym_row false (line i)).
  { intros i Hi. rewrite (nth_indep _ _ (sym_row false (line 0%nat))) by (rewrite map_length, seq_length; auto).
    rewrite (map_nth (fun i => sym_row false (line i))), seq_nth by auto. reflexivity. }
  fold n in Ln.
  split; [split|].
  - rewrite map_length, seq_length. auto.
  - intros i Hi. rewrite Row, sym_row_length by (auto; try lia; discriminate). rewrite <- (LW i) by lia. lia.
  - intros i Hi. rewrite Row by lia. rewrite n_kept_countb, sym_row_countb. cbn [andb]. rewrite Nat.sub_0_r.
    rewrite LL, countb_app by lia.
    destruct (covering_kept_line (i_covering a) n i ltac:(lia) Hc) as [_ [X _]]. fold cov in X. rewrite X.
    rewrite Nat2Z.inj_mul, Nat2Z.inj_add, (line_count a _ ts i ltac:(lia) G).
    pose proof (Forall2_nth _ _ _ 0 [] SP i ltac:(lia)) as Si. cbv beta in Si.
    assert (Ei : nth i ns 0 mod 2 = 0) by (rewrite Zmod_even, En by (apply nth_In; lia); auto).
    assert (SS : sumZ (map (plies_of a i) (seq 0 (length (i_sizes a)))) = sumZ (nth i (i_panels a) [])).
    { rewrite (Forall2_len _ _ _ (F (nth i (i_panels a) []) ltac:(apply nth_In; fold n; lia))). apply sum_seq. }
    rewrite SS. lia.
  - intros i j Hi Hj. rewrite Row by lia. unfold sym_row.
    assert (K : kept (nth j (renumber 1 (line i)) (-1)) = true).
    { destruct (covering_kept_line (i_covering a) n i ltac:(lia) Hc) as [X [Y _]]. fold cov in X, Y.
      rewrite renumber_kept_nth by (try lia; specialize (LW i ltac:(lia)); rewrite LL, app_length by lia; lia).
      rewrite LL by lia. apply all_kept_prefix; lia. }
    assert (Lr : length (renumber 1 (line i)) = length (line i)) by apply renumber_length.
    specialize (LW i ltac:(lia)).
    assert (Lc : (i_covering a <= length (line i))%nat).
    { destruct (covering_kept_line (i_covering a) n i ltac:(lia) Hc) as [X _]. fold cov in X. rewrite LL, app_length by lia. lia. }
    split; apply kept_neq.
    + rewrite app_nth1 by lia. exact K.
    + rewrite app_nth2 by lia. rewrite rev_nth by lia. rewrite Lr.
      replace (length (line i) - S (i_max a - 1 - j - length (line i)))%nat with j by lia. exact K.
  - intros i k Hi Hk Hle j. rewrite !Row by lia. unfold sym_row. apply thinner_of_nth.
    assert (TH : thinner (line i) (line k)).
    { rewrite !LL by lia. apply thinner_app.
      - destruct (covering_kept_line (i_covering a) n i ltac:(lia) Hc) as [_ [_ X]]. apply X; lia.
      - apply (line_thin a (seq 0 (length (i_sizes a)))); auto; fold n; try lia. intros s Hs. apply in_seq in Hs. apply Hle; lia. }
    apply thinner_app; [|apply thinner_rev]; apply thinner_renumber; auto; lia.
  - intros r Hr. apply in_map_iff in Hr. destruct Hr as [i [<- _]]. apply sym_row_palindrome.
Qed.
Print Assumptions C51_symmetric_partial.

(** asymmetric laminates *)
Theorem C51_asymmetric_partial : forall g ns a rnd pdl,
  divided false g ns a -> draws_ok a rnd ->
  create_initial_pdl a false rnd = Ok pdl -> structure_layout ns a pdl.
Proof.
  intros g ns a rnd pdl D R H.
  destruct (divided_fits _ _ _ _ D) as [F [SP N]]. pose proof (thickest_sum _ _ _ _ D) as T. cbv iota in T, SP.
  pose proof (dv_cov _ _ _ _ D) as Hc. pose proof (Forall2_len _ _ _ SP) as Ln.
  unfold create_initial_pdl in H. cbv zeta in H. set (n := length (i_panels a)) in *. fold n in Ln.
  set (cov := covering_pdl (i_covering a) n) in *.
  destruct (asym_groups a rnd [cov; None] [None; cov] 0 (length (i_sizes a))) as [[bf af]|] eqn:E; cbn [bind fst snd] in H; [|discriminate].
  destruct (asym_groups_ok a rnd F R N _ _ _ _ _ (Nat.add_0_l _) E) as [f [G [Eb Ea]]]. cbn [fst snd] in Eb, Ea.
  assert (Hn : (0 < n)%nat) by (subst n; destruct (i_panels a); [congruence|cbn; lia]).
  set (ng := length (i_sizes a)) in *.
  assert (Par : forall b l, at_parity b 2 l = at_parity b 0 l).
  { intros b l. assert (X : forall l k, at_parity b (S (S k)) l = at_parity b k l).
    { clear. induction l as [|o l IH]; intros k; [reflexivity|]. rewrite (at_parity_cons b (S (S k))), (at_parity_cons b k), IH. reflexivity. }
    apply X. }
  assert (FT : front_tables bf = tables [cov] ++ map f (filter Nat.even (seq 0 ng))).
  { unfold front_tables. rewrite Eb. cbn [app]. rewrite !at_parity_cons. cbn [Nat.even Bool.eqb app]. rewrite Par, at_parity_places, places_true. reflexivity. }
  assert (Lb : length bf = length af) by (rewrite Eb, Ea, !app_length, !map_length; reflexivity).
  assert (BT : back_tables bf (Some af) = rev (map f (filter Nat.odd (seq 0 ng))) ++ rev (tables [cov])).
  { unfold back_tables. rewrite Lb, firstn_all, Ea. cbn [app]. rewrite !at_parity_cons. cbn [Nat.even Bool.eqb app].
    rewrite Par, at_parity_places, places_false, rev_app_distr. reflexivity. }
  assert (GO : Forall2 (gtable a) (group_order ng) (map f (group_order ng))).
  { apply Forall2_map_f. intros s Hs. apply G. apply (Permutation_in _ (group_order_perm ng)). exact Hs. }
  assert (RC : rev (tables [cov]) = tables [cov]) by (destruct cov; reflexivity).
  assert (TS : front_tables bf ++ back_tables bf (Some af) = tables [cov] ++ map f (group_order ng) ++ tables [cov]).
  { rewrite FT, BT, RC. unfold group_order. rewrite map_app, map_rev, <- !app_assoc. reflexivity. }
  assert (TO : tables_ok n (front_tables bf ++ back_tables bf (Some af))).
  { rewrite TS. apply tables_ok_app. split; [apply covering_tables; auto|]. apply tables_ok_app.
    split; [exact (gtables_ok a _ _ GO)|apply covering_tables; auto]. }
  rewrite global_asym in H; [|exact Hn|intros aft Ea' _; injection Ea' as <-; lia|exact TO]. cbn [d_panels d_max] in H.
  set (line := fun i => panel_line (front_tables bf ++ back_tables bf (Some af)) i) in *.
  set (c := fun i => panel_line (tables [cov]) i).
  assert (LL : forall i, line i = c i ++ panel_line (map f (group_order ng)) i ++ c i) by (intros; unfold line, c; rewrite TS, !panel_line_app; auto).
  assert (Pos : forall s, In s (group_order ng) -> 0 <= size_of a s).
  { intros s Hs. apply (Permutation_in _ (group_order_perm ng)) in Hs. apply in_seq in Hs. pose proof (fits_nth a 0 s F Hn ltac:(fold ng; lia)). lia. }
  assert (SumN : Z.of_nat (sumN (map (fun g => Z.to_nat (size_of a g)) (group_order ng))) = sumZ (i_sizes a)).
  { rewrite sumN_Z by auto. rewrite (sumZ_perm _ _ (Permutation_map (size_of a) (group_order_perm ng))). apply sum_seq. }
  assert (CV : forall i, (i < n)%nat -> length (c i) = i_covering a /\ countb kept (c i) = i_covering a /\ forall k, (k < n)%nat -> thinner (c i) (c k)).
  { intros i Hi. exact (covering_kept_line (i_covering a) n i Hi Hc). }
  assert (LW : forall i, (i < n)%nat -> length (line i) = i_max a).
  { intros i Hi. rewrite LL, !app_length. rewrite (line_length a _ _ i Hi GO). destruct (CV i Hi) as [X _]. lia. }
  destruct (_ || _)%bool; [|discriminate]. injection H as <-.
  assert (Row : forall i, (i < n)%nat -> nth i (map (fun i => renumber 1 (line i)) (seq 0 n)) [] = renumber 1 (line i)).
  { intros i Hi. rewrite (nth_indep _ _ (renumber 1 (line 0%nat))) by (rewrite map_length, seq_length; auto).
    rewrite (map_nth (fun i => renumber 1 (line i))), seq_nth by auto. reflexivity. }
  split.
  - rewrite map_length, seq_length. auto.
  - intros i Hi. rewrite Row, renumber_length by lia. apply LW; lia.
  - intros i Hi. rewrite Row by lia. rewrite n_kept_countb, renumber_countb by lia.
    rewrite LL, !countb_app. destruct (CV i ltac:(lia)) as [_ [X _]]. rewrite X.
    rewrite !Nat2Z.inj_add, (line_count a _ _ i ltac:(fold n; lia) GO).
    pose proof (Forall2_nth _ _ _ 0 [] SP i ltac:(lia)) as Si. cbv beta in Si.
    rewrite (sumZ_perm _ _ (Permutation_map (plies_of a i) (group_order_perm ng))).
    assert (SS : sumZ (map (plies_of a i) (seq 0 ng)) = sumZ (nth i (i_panels a) [])).
    { unfold ng. rewrite (Forall2_len _ _ _ (F (nth i (i_panels a) []) ltac:(apply nth_In; fold n; lia))). apply sum_seq. }
    rewrite SS. lia.
  - intros i j Hi Hj. rewrite Row by lia. destruct (CV i ltac:(lia)) as [X [Y _]]. specialize (LW i ltac:(lia)).
    pose proof LW as LW'. rewrite LL, !app_length in LW'.
    split; apply kept_neq; rewrite renumber_kept_nth by lia; rewrite LL.
    + apply all_kept_prefix; lia.
    + rewrite app_nth2 by lia. rewrite app_nth2 by lia. rewrite <- (app_nil_r (c i)) at 2. apply all_kept_prefix; lia.
  - intros i k Hi Hk Hle j. rewrite !Row by lia. apply thinner_of_nth. apply thinner_renumber; try lia. rewrite !LL.
    destruct (CV i ltac:(lia)) as [_ [_ X]].
    apply thinner_app; [apply X; lia|]. apply thinner_app; [|apply X; lia].
    apply (line_thin a (group_order ng)); auto; fold n; try lia. intros s Hs. apply (Permutation_in _ (group_order_perm ng)) in Hs.
    apply in_seq in Hs. apply Hle; lia.
Qed.
Print Assumptions C51_asymmetric_partial.

(** a two-panel structure, 12 and 8 plies, one protected ply on each side *)
Definition demo_ini : ini_args :=
  {| i_sizes := [5]; i_panels := [[3]; [5]]; i_max := 12; i_has_middle := false; i_middle_indices := [0; 0];
     i_covering := 1; i_spacing := true; i_min_drop := 2;
     i_strip := {| s_boundaries := [(0, 1)%nat]; s_weights := [((0, 1)%nat, 1%Q)] |} |}.
Definition demo_rnd : randomness := fun _ => ([{| first_sample := [3; 0]%nat; deletions := [[0; 1]%nat] |}], false).
Example C51_example :
  divided true default_sizes [8; 12] demo_ini /\ draws_ok demo_ini demo_rnd /\
  create_initial_pdl demo_ini true demo_rnd = Ok [[1; -1; 2; 3; -1; 4; 4; -1; 3; 2; -1; 1]; [1; 2; 3; 4; 5; 6; 6; 5; 4; 3; 2; 1]].
Proof.
  split; [|split].
  - split; cbn [default_sizes g_min g_max demo_ini i_covering i_max i_panels i_sizes]; try lia; try discriminate.
    + exists 1. vm_compute. reflexivity.
    + repeat (constructor; [vm_compute; reflexivity|]). constructor.
    + intros n [<-|[<-|[]]]; lia.
  - intros g d Hg Hd. cbn in Hg. assert (g = 0%nat) by lia. subst g. cbn in Hd. destruct Hd as [<-|[]].
    cbn. unfold sample_of. repeat match goal with |- _ /\ _ => split end; try exact I; try reflexivity;
    try (intros i Hi; repeat destruct Hi as [<-|Hi]; try destruct Hi; repeat split; intros; (lia || discriminate));
    repeat (constructor; [cbn; intuition lia|]); try constructor.
  - vm_compute. reflexivity.
Qed.

Definition demo_ini2 : ini_args :=
  {| i_sizes := [4; 9]; i_panels := [[4; 9]; [4; 6]]; i_max := 15; i_has_middle := false; i_middle_indices := [0; 0];
     i_covering := 1; i_spacing := false; i_min_drop := 2; i_strip := {| s_boundaries := []; s_weights := [] |} |}.
Definition demo_rnd2 : randomness := fun g =>
  if Nat.eqb g 0 then ([{| first_sample := []; deletions := [] |}], false)
  else ([{| first_sample := [7; 1; 4]%nat; deletions := [[0; 1; 2]%nat] |}], false).
Example C51_example_asym :
  divided false default_sizes [15; 12] demo_ini2 /\ draws_ok demo_ini2 demo_rnd2 /\
  create_initial_pdl demo_ini2 false demo_rnd2 =
    Ok [[1; 2; 3; 4; 5; 6; 7; 8; 9; 10; 11; 12; 13; 14; 15]; [1; 2; 3; 4; 5; 6; -1; 7; 8; -1; 9; 10; -1; 11; 12]].
Proof.
  split; [|split].
  - split; cbn [default_sizes g_min g_max demo_ini2 i_covering i_max i_panels i_sizes]; try lia; try discriminate.
    + exists 2. vm_compute. reflexivity.
    + repeat (constructor; [vm_compute; reflexivity|]). constructor.
    + intros n [<-|[<-|[]]]; lia.
  - intros g d Hg Hd. cbn in Hg. assert (g = 0%nat \/ g = 1%nat) as [->| ->] by lia; cbn in Hd; destruct Hd as [<-|[]];
    cbn; unfold sample_of; repeat match goal with |- _ /\ _ => split end; try exact I; try reflexivity;
    try (intros i Hi; repeat destruct Hi as [<-|Hi]; try destruct Hi; repeat split; intros; (lia || discriminate));
    repeat (constructor; [cbn; intuition lia|]); try constructor.
  - vm_compute. reflexivity.
Qed.
