(* AbdallaProofs.v - proofs about Abdalla10.v *)
From Coq Require Import Lqa Qround Sorted.
From Verif Require Import Base Uniq Constraints ConstraintsProofs Divers DiversProofs Divide DivideProofs
  Search SearchProofs Repair10 Repair10Proofs Membrane MembraneProofs Abdalla10.
Local Open Scope Z_scope.

(* ------------------------------------------------------------------ *)
(** ** The loop *)
Section Approach.
Variable m : nat.
Variable opts : vec -> list Q.
Variable step : mstate -> Q -> nat -> nat -> result (option mstate).
Variable P : mstate -> Prop.
Hypothesis Hm : (0 < m)%nat.
Hypothesis Hlen : forall x, length (opts x) = (m * m)%nat.
Hypothesis Hstep : forall st v i j, P st -> (i < m)%nat -> (j < m)%nat ->
  v = e10 \/ v = nth (i * m + j) (opts (m_lp st)) 0%Q ->
  step st v i j = Ok None \/ exists s, step st v i j = Ok (Some s) /\ P s.

Lemma approach_run fuel : forall tab st, P st -> table m opts st tab ->
  match approach m opts step fuel tab st with
  | Ok s => P s /\ (m_obj s <= em10)%Q
  | Err e => e = OutOfFuel
  end.
Proof.
  induction fuel as [|fuel IH]; intros tab st HP HT; cbn [approach]; destruct (Qltb em10 (m_obj st)) eqn:E.
  - reflexivity.
  - apply Qltb_false in E. auto.
  - assert (Hne : tab <> []) by (intros ->; destruct HT as [L _]; cbn in L; nia).
    destruct (argmin_ok tab Hne) as [k [Ek [Hk _]]]. rewrite Ek; cbn [bind]. rewrite (proj1 HT) in Hk.
    assert (D : (k = k / m * m + k mod m)%nat) by (rewrite Nat.mul_comm; apply Nat.div_mod; lia).
    assert (D1 : (k / m < m)%nat) by (apply Nat.div_lt_upper_bound; lia).
    assert (D2 : (k mod m < m)%nat) by (apply Nat.mod_upper_bound; lia).
    destruct (Hstep st (nth k tab 0%Q) (k / m) (k mod m) HP D1 D2) as [Es|[s [Es Ps]]].
    { rewrite <- D. exact (proj2 HT k Hk). }
    + rewrite Es; cbn [bind]. apply IH; [exact HP|]. apply table_upd, HT.
    + rewrite Es; cbn [bind]. destruct (Qltb (m_obj s) em10) eqn:F.
      * apply Qltb_true in F. split; [exact Ps|lra].
      * apply IH; [exact Ps|]. apply table_0. exact Hlen.
  - apply Qltb_false in E. auto.
Qed.
End Approach.

Lemma dist_options_length dist sh x : length (dist_options dist sh x) = (length sh * length sh)%nat.
Proof.
  assert (G : forall (g : nat -> nat -> Q) m n s, length (flat_map (fun a => map (g a) (seq 0 m)) (seq s n)) = (n * m)%nat).
  { intros g m n; induction n as [|n IH]; intros s; cbn [seq flat_map]; [reflexivity|]. rewrite app_length, map_length, seq_length, IH. lia. }
  unfold dist_options. rewrite G. lia.
Qed.
Lemma dist_options_nth dist sh x i j : (i < length sh)%nat -> (j < length sh)%nat ->
  nth (i * length sh + j) (dist_options dist sh x) 0%Q =
  if Nat.eqb i j then e10 else dist (vadd (vsub x (vnth sh i)) (vnth sh j)).
Proof. intros Hi Hj. unfold dist_options. rewrite flat_nth by assumption. reflexivity. Qed.

(* ------------------------------------------------------------------ *)
Section State.
Variable c : cons.
Variable cos_sin : Z -> nat -> Q.
Variable dist : vec -> Q.
Notation set := (set_of_angles c).
Hypothesis Hset : NoDup set.
Hypothesis Hok : forall a, In a set -> -90 < a <= 90.
Hypothesis Hneg : forall a, In a set -> a <> 90 -> In (- a) set.
Hypothesis Hne : set <> [].
Hypothesis Hext : forall x y, (forall i, x i == y i)%Q -> (dist x == dist y)%Q.

Variables ss0 q0 : list Z.
Notation np := (length ss0).
Notation order := (sort_order c 100 np).
Hypothesis Hn : Z.of_nat np <= 6666.
Hypothesis Hpal : sym c = true -> ss0 = rev ss0.
Hypothesis Hss : forall i, (i < np)%nat -> nth i ss0 0 = 666 \/ In (nth i ss0 0) set.
Hypothesis Hq : forall a, In a q0 -> In a set.
Hypothesis Hmid : sym c = true -> Nat.odd np = true -> nth (np / 2) ss0 0 <> 666.

(** the plies, the lamination parameters and the distance agree; the distance is 1e10
    after a step that the table had crossed out *)
Record held (st : mstate) : Prop := {
  h_like : like c 100 ss0 q0 (m_ss st) (m_q st);
  h_listed : listed c 100 ss0 (m_ss st) (m_q st) (m_ind st) [];
  h_middle : middle_part c (m_ss st) = middle_part c ss0;
  h_lp : forall i, (m_lp st i == lampamA_ply_queue c cos_sin (m_ss st) (m_q st) i)%Q;
  h_obj : (m_obj st == dist (m_lp st))%Q \/ m_obj st = e10 }.
Definition held_pairs (st : mstate) : Prop := held st /\ even_pairs c ss0 q0 (m_ss st) (m_q st).

Lemma start_dist_ok : exists st, start_dist c cos_sin dist ss0 q0 = Ok st /\ held_pairs st /\ m_ss st = ss0 /\ m_q st = q0 /\ m_obj st = dist (m_lp st).
Proof.
  destruct (start_ok c cos_sin (fun _ => 0%Q) (fun _ => 0%Q) 100 Hset Hok ss0 q0 Hn Hpal Hss Hq Hmid []) as [st [E [[G1 G2 G3 G4 _] [S1 [S2 [S3 _]]]]]].
  unfold start_state in E. unfold start_dist.
  destruct (calc_lampamA_ply_queue c cos_sin ss0 q0) as [x|]; cbn [bind] in *; [|discriminate].
  destruct (calc_ind_plies c 100 ss0 q0) as [l|]; cbn [bind] in *; [|discriminate].
  injection E as <-. cbn [m_ss m_q m_lp m_ind] in *.
  eexists; split; [reflexivity|]. split; [|cbn; auto]. split.
  - constructor; cbn [m_ss m_q m_lp m_obj m_ind]; auto. left; reflexivity.
  - cbn [m_ss m_q]. apply even_0.
Qed.

Lemma lookup_pos k a : nth_error (pos_angles c) k = Some a ->
  0 <= a <= 90 /\ exists k1 k1', lookup c a = Ok k1 /\ lookup c (- a) = Ok k1' /\ nth_error set k1 = Some a /\ nth_error set k1' = Some (partner a).
Proof.
  intros E. destruct (pos_angles_spec c Hok ss0 _ _ E) as [B [b [Hb Eb]]]. split; [exact B|].
  assert (H : In a set /\ (a = 90 \/ In (- a) set)).
  { destruct (Z.eq_dec b 90) as [->|N]; [change (Z.abs 90) with 90 in Eb; subst a; auto|].
    pose proof (Hneg b Hb N). pose proof (Hok b Hb). destruct (Z.abs_spec b) as [[_ X]|[_ X]]; rewrite X in Eb; subst a.
    - auto.
    - rewrite Z.opp_involutive. auto. }
  destruct H as [H1 H2]. destruct (In_nth_error _ _ H1) as [k1 E1].
  assert (L1 : lookup c a = Ok k1) by (apply lookup_ok; [exact Hset|lia|exact E1]).
  assert (exists k1', lookup c (- a) = Ok k1') as [k1' L1'].
  { destruct (Z.eq_dec a 90) as [->|N].
    - exists k1. unfold lookup, ind_angle in *. change (- (90) =? -90) with true. cbn [andb].
      assert (memb 90 set = true) as -> by (unfold memb; apply existsb_exists; exists 90; split; [exact H1|reflexivity]).
      change (90 =? -90) with false in L1. cbn [andb] in L1. exact L1.
    - destruct H2 as [|H2]; [contradiction|]. destruct (In_nth_error _ _ H2) as [k2 E2]. exists k2. apply lookup_ok; [exact Hset|lia|exact E2]. }
  exists k1, k1'. split; [exact L1|]. split; [exact L1'|]. split; [exact E1|]. exact (lookup_partner c Hset Hok ss0 a k1' B L1').
Qed.

(** a couple becomes itself *)
Lemma change_same_ok st k1 k1' a1 lp obj ex :
  like c 100 ss0 q0 (m_ss st) (m_q st) -> listed c 100 ss0 (m_ss st) (m_q st) (m_ind st) [] ->
  nth_error set k1 = Some a1 -> nth_error set k1' = Some (partner a1) ->
  nth k1 (m_ind st) [] <> [] -> nth k1' (m_ind st) [] <> [] -> (k1 = k1' -> (2 <= length (nth k1 (m_ind st) []))%nat) ->
  exists s, change_couple c order a1 a1 k1 k1' k1 k1' st lp obj ex = Ok s /\ like c 100 ss0 q0 (m_ss s) (m_q s) /\
    listed c 100 ss0 (m_ss s) (m_q s) (m_ind s) [] /\ Permutation (content c (m_ss st) (m_q st)) (content c (m_ss s) (m_q s)) /\
    middle_part c (m_ss s) = middle_part c (m_ss st) /\ m_lp s = lp /\ m_obj s = obj.
Proof.
  intros K Li E1 E1' N N' Two. unfold change_couple.
  destruct (pop_ok c 100 Hset ss0 _ _ _ _ _ _ Li E1 N) as [x [t [En [Ep Li1]]]]. rewrite Ep; cbn [bind fst snd].
  assert (N2 : nth k1' (upd k1 t (m_ind st)) [] <> []).
  { rewrite nth_upd. destruct (Nat.eqb_spec k1 k1') as [Ek|]; cbn [andb]; [|exact N'].
    destruct (Nat.ltb_spec k1 (length (m_ind st))); [|exact N']. specialize (Two Ek). rewrite En in Two. cbn in Two. destruct t; [cbn in Two; lia|discriminate]. }
  destruct (pop_ok c 100 Hset ss0 _ _ _ _ _ _ Li1 E1' N2) as [x' [t' [En' [Ep' Li2]]]]. rewrite Ep'; cbn [bind fst snd].
  apply (listed_perm c 100 ss0 _ _ _ _ _ (perm_swap _ _ _)) in Li2.
  destruct (change_ply_ok c 100 Hok ss0 q0 Hn Hpal _ _ _ _ _ _ _ K Li2 (nth_error_In _ _ E1) (nth_error_In _ _ E1)) as [ss' [q' [rest [Ec [K' [Li3 [P1 [P2 P3]]]]]]]].
  rewrite Ec; cbn [bind fst snd].
  apply (listed_perm c 100 ss0 _ _ _ _ _ (perm_swap _ _ _)) in Li3.
  destruct (change_ply_ok c 100 Hok ss0 q0 Hn Hpal _ _ _ _ _ _ _ K' Li3 (nth_error_In _ _ E1') (nth_error_In _ _ E1')) as [ss2 [q2 [rest2 [Ec2 [K2 [Li4 [Q1 [Q2 Q3]]]]]]]].
  rewrite Ec2; cbn [bind fst snd].
  apply (listed_perm c 100 ss0 _ _ _ _ _ (perm_swap _ _ _)) in Li4.
  pose proof (add_ok c 100 Hset ss0 _ _ _ _ _ _ _ (add_ok c 100 Hset ss0 _ _ _ _ _ _ _ Li4 E1) E1') as Li5.
  destruct (resort_at_ok c 100 ss0 Hpal k1 (add_index k1' x' (add_index k1 x (upd k1' t' (upd k1 t (m_ind st)))))) as [L1 [Er1 Hr1]]. rewrite Er1; cbn [bind].
  destruct (resort_at_ok c 100 ss0 Hpal k1' L1) as [L2 [Er2 Hr2]]. rewrite Er2; cbn [bind].
  eexists; split; [reflexivity|]. cbn [m_ss m_q m_lp m_obj m_ind]. split; [exact K2|]. split; [auto|].
  split; [rewrite P1, <- P2, Q1, <- Q2; reflexivity|]. split; [congruence|]. auto.
Qed.

Lemma same_content_lp ss q ss' q' i : length ss = np -> length ss' = np -> middle_part c ss' = middle_part c ss ->
  Permutation (content c ss q) (content c ss' q') -> (lampamA_ply_queue c cos_sin ss' q' i == lampamA_ply_queue c cos_sin ss q i)%Q.
Proof.
  intros L L' Em P. rewrite (lp_change c cos_sin ss0 ss q ss' q' [] [] (content c ss q) i L L' Em); cbn [app]; [|reflexivity|symmetry; exact P].
  change (vsum cos_sin [] i) with 0%Q. ring.
Qed.

Lemma couple_step_ok st v i j : held_pairs st -> (i < length (pos_angles c))%nat -> (j < length (pos_angles c))%nat ->
  v = e10 \/ v = nth (i * length (pos_angles c) + j) (dist_options dist (shifts_1 c cos_sin np) (m_lp st)) 0%Q ->
  couple_step c cos_sin order np st v i j = Ok None \/ exists s, couple_step c cos_sin order np st v i j = Ok (Some s) /\ held_pairs s.
Proof.
  intros [[K Li Em Elp Eo] Ev] Hi Hj Hv. unfold couple_step.
  pose proof (nth_error_nth' (pos_angles c) 0 Hi) as Ei. pose proof (nth_error_nth' (pos_angles c) 0 Hj) as Ej.
  set (a1 := nth i (pos_angles c) 0) in *. set (a2 := nth j (pos_angles c) 0) in *.
  destruct (lookup_pos _ _ Ei) as [B1 [k1 [k1' [L1 [L1' [E1 E1']]]]]].
  destruct (lookup_pos _ _ Ej) as [B2 [k2 [k2' [L2 [L2' [E2 E2']]]]]].
  rewrite L1, L1', L2, L2'; cbn [bind].
  destruct (no_couple a1 k1 k1' (m_ind st)) eqn:Nc; [auto|right].
  assert (NN : nth k1 (m_ind st) [] <> [] /\ nth k1' (m_ind st) [] <> [] /\ (k1 = k1' -> (2 <= length (nth k1 (m_ind st) []))%nat)).
  { clear - Nc E1 E1' B1 Hset. unfold no_couple in Nc. destruct ((a1 =? 0) || (a1 =? 90))%bool eqn:Z.
    - apply Nat.ltb_ge in Nc. assert (k1' = k1) as ->.
      { eapply nth_error_inj; [exact Hset|exact E1'|]. rewrite E1. f_equal. unfold partner. apply orb_true_iff in Z. destruct Z as [Z|Z]; apply Z.eqb_eq in Z; rewrite Z; reflexivity. }
      split; [intros X; rewrite X in Nc; cbn in Nc; lia|]. split; [intros X; rewrite X in Nc; cbn in Nc; lia|auto].
    - apply orb_false_iff in Nc. destruct Nc as [N1 N2]. apply Nat.ltb_ge in N1, N2.
      split; [intros X; rewrite X in N1; cbn in N1; lia|]. split; [intros X; rewrite X in N2; cbn in N2; lia|].
      intros X. exfalso. apply orb_false_iff in Z. destruct Z as [Z1 Z2]. apply Z.eqb_neq in Z1, Z2. rewrite <- X, E1 in E1'. injection E1' as E1'.
      unfold partner in E1'. destruct (Z.eqb_spec a1 90); lia. }
  destruct NN as [N1 [N2 N3]].
  set (lp := vadd (m_lp st) (vsub (vnth (shifts_1 c cos_sin np) j) (vnth (shifts_1 c cos_sin np) i))).
  assert (Ls : length (shifts_1 c cos_sin np) = length (pos_angles c)) by apply map_length.
  destruct (Nat.eq_dec i j) as [<-|Nij].
  - assert (k2 = k1) as -> by congruence. assert (k2' = k1') as -> by congruence. change a2 with a1.
    destruct (change_same_ok st k1 k1' a1 lp v [] K Li E1 E1' N1 N2 N3) as [s [Ec [K' [Li' [P1 [P3 [F1 F2]]]]]]].
    exists s. rewrite Ec. split; [reflexivity|]. split.
    + constructor; auto.
      * congruence.
      * intros x. rewrite F1, (same_content_lp _ _ _ _ x (proj1 K) (proj1 K') P3 P1). unfold lp, vadd, vsub. rewrite Elp. ring.
      * right. rewrite F2. destruct Hv as [Hv|Hv]; [exact Hv|]. rewrite Hv, <- Ls. rewrite <- Ls in Hi. rewrite dist_options_nth by assumption. rewrite Nat.eqb_refl. reflexivity.
    + intros a Na Na'. rewrite <- (Ev a Na Na'). rewrite (count_perm a _ _ P1), (count_perm (-a) _ _ P1). reflexivity.
  - assert (Na : a1 <> a2) by (intros X; apply Nij; eapply pos_nth_inj; [exact Ei|rewrite X; exact Ej]).
    assert (Np : a2 <> partner a1) by (unfold partner; destruct (Z.eqb_spec a1 90); lia).
    destruct (change_couple_ok c 100 Hset Hok ss0 q0 Hn Hpal st k1 k1' k2 k2' a1 a2 lp v [] K Li E1 E1' E2 E2' N1 N2 N3 Np) as [s [rest [Ec [K' [Li' [P1 [P2 [P3 [F1 [F2 _]]]]]]]]]].
    exists s. rewrite Ec. split; [reflexivity|]. split.
    + constructor; auto.
      * congruence.
      * intros x. rewrite F1. rewrite (lp_change c cos_sin ss0 _ _ _ _ [a1; partner a1] [a2; partner a2] rest x (proj1 K) (proj1 K') P3 P1 P2).
        unfold lp, vsub, vadd. rewrite (shifts_1_nth c cos_sin ss0 _ _ Ei), (shifts_1_nth c cos_sin ss0 _ _ Ej), Elp. unfold vscale, vadd, vsum, sumQ; cbn. ring.
      * rewrite F2, F1. destruct Hv as [Hv|Hv]; [auto|left]. rewrite <- Ls in Hv. rewrite dist_options_nth in Hv by (rewrite Ls; assumption).
        destruct (Nat.eqb_spec i j); [congruence|]. rewrite Hv. apply Hext. intros x. unfold lp, vadd, vsub. ring.
    + intros a Na1 Na'. rewrite <- (Ev a Na1 Na'). rewrite (count_perm a _ _ P1), (count_perm (-a) _ _ P1), (count_perm a _ _ P2), (count_perm (-a) _ _ P2).
      rewrite !ccons.
      assert (Cp : forall b, 0 <= b <= 90 -> (if b =? a then 1 else 0) + (if partner b =? a then 1 else 0) = (if b =? - a then 1 else 0) + (if partner b =? - a then 1 else 0)).
      { intros b Hb. unfold partner. destruct (Z.eqb_spec b 90); destruct (Z.eqb_spec b a), (Z.eqb_spec b (-a)); destruct (Z.eqb_spec 90 a), (Z.eqb_spec 90 (-a)), (Z.eqb_spec (-b) a), (Z.eqb_spec (-b) (-a)); lia. }
      pose proof (Cp a1 B1). pose proof (Cp a2 B2). lia.
Qed.

Lemma one_step_ok st v i j : held st -> (i < length set)%nat -> (j < length set)%nat ->
  v = e10 \/ v = nth (i * length set + j) (dist_options dist (shifts_3 c cos_sin np) (m_lp st)) 0%Q ->
  one_step c cos_sin order np st v i j = Ok None \/ exists s, one_step c cos_sin order np st v i j = Ok (Some s) /\ held s.
Proof.
  intros [K Li Em Elp Eo] Hi Hj Hv. unfold one_step.
  destruct (Nat.ltb_spec (length (nth i (m_ind st) [])) 1) as [H|H]; [auto|right].
  pose proof (nth_error_nth' set 0 Hi) as Ei. pose proof (nth_error_nth' set 0 Hj) as Ej.
  set (a1 := nth i set 0) in *. set (a2 := nth j set 0) in *.
  set (lp := vadd (m_lp st) (vsub (vnth (shifts_3 c cos_sin np) j) (vnth (shifts_3 c cos_sin np) i))).
  assert (Ls : length (shifts_3 c cos_sin np) = length set) by apply map_length.
  destruct (change_one_ok c 100 Hset Hok ss0 q0 Hn Hpal st i j a1 a2 lp v [] K Li Ei Ej) as [s [rest [Ec [K' [Li' [P1 [P2 [P3 [F1 [F2 _]]]]]]]]]].
  { intros X; rewrite X in H; cbn in H; lia. }
  exists s. rewrite Ec. split; [reflexivity|]. constructor; auto.
  - congruence.
  - intros x. rewrite F1. rewrite (lp_change c cos_sin ss0 _ _ _ _ [a1] [a2] rest x (proj1 K) (proj1 K') P3 P1 P2).
    unfold lp, vsub, vadd. rewrite (shifts_3_nth c cos_sin ss0 _ _ Ei), (shifts_3_nth c cos_sin ss0 _ _ Ej), Elp. unfold vscale, vadd, vsum, sumQ; cbn. ring.
  - rewrite F2, F1. destruct Hv as [Hv|Hv]; [auto|]. rewrite <- Ls in Hv. rewrite dist_options_nth in Hv by (rewrite Ls; assumption).
    destruct (Nat.eqb_spec i j); [auto|]. left. rewrite Hv. apply Hext. intros x. unfold lp, vadd, vsub. ring.
Qed.

(** what is returned *)
Definition reaches (ss q : list Z) : Prop :=
  like c 100 ss0 q0 ss q /\ middle_part c ss = middle_part c ss0 /\ (dist (lampamA_ply_queue c cos_sin ss q) <= em10)%Q.

Lemma held_reaches st : held st -> (m_obj st <= em10)%Q -> reaches (m_ss st) (m_q st) /\ (m_obj st == dist (m_lp st))%Q.
Proof.
  intros [K Li Em Elp Eo] O. destruct Eo as [Eo|Eo]; [|rewrite Eo in O; exfalso; revert O; unfold e10, em10; lra].
  split; [|exact Eo]. split; [exact K|]. split; [exact Em|]. rewrite <- (Hext _ _ Elp), <- Eo. exact O.
Qed.

Lemma run_abdalla_no_ipo fuel :
  match repair_10_Abdalla_no_ipo c cos_sin dist fuel ss0 q0 with
  | Ok (ss, q) => reaches ss q
  | Err e => e = OutOfFuel
  end.
Proof.
  unfold repair_10_Abdalla_no_ipo. destruct start_dist_ok as [st [E [[Hh _] _]]]. rewrite E; cbn [bind].
  assert (Ls : length (shifts_3 c cos_sin np) = length set) by apply map_length.
  pose proof (approach_run (length set) (dist_options dist (shifts_3 c cos_sin np)) (one_step c cos_sin order np) held) as A.
  assert (0 < length set)%nat by (destruct set; [congruence|cbn; lia]).
  assert (L : forall x, length (dist_options dist (shifts_3 c cos_sin np) x) = (length set * length set)%nat) by (intros x; rewrite dist_options_length, Ls; reflexivity).
  specialize (A H L one_step_ok fuel (dist_options dist (shifts_3 c cos_sin np) (m_lp st)) st Hh (table_0 _ _ L st)).
  destruct (approach _ _ _ _ _ _) as [s|e]; cbn [bind]; [|exact A]. destruct A as [A1 A2]. apply (held_reaches s A1 A2).
Qed.

Lemma exchange_ok st ka kb a b sh : held_pairs st -> (m_obj st <= em10)%Q -> (a = 0 /\ b = 90 \/ a = 90 /\ b = 0) ->
  nth_error set ka = Some a -> nth_error set kb = Some b ->
  (forall i, sh i == unit_share c np * (cos_sin b i - cos_sin a i))%Q ->
  exists o, exchange c dist sh a b ka st = Ok o /\
    match o with None => True | Some s => reaches (fst s) (snd s) /\ even_pairs c ss0 q0 (fst s) (snd s) /\
      (dist (lampamA_ply_queue c cos_sin (fst s) (snd s)) < dist (lampamA_ply_queue c cos_sin (m_ss st) (m_q st)))%Q end.
Proof.
  intros [Hh Ev] O Hab Ea Eb Hsh. destruct (held_reaches st Hh O) as [_ Eo]. destruct Hh as [K Li Em Elp _]. unfold exchange.
  destruct (nth ka (m_ind st) []) as [|x0 t0] eqn:En; [exists None; auto|].
  destruct (Qltb _ _) eqn:G; [|exists None; auto]. apply Qltb_true in G.
  destruct (pop_ok c 100 Hset ss0 _ _ _ _ _ _ Li Ea ltac:(rewrite En; discriminate)) as [x [t [En' [Ep Li1]]]]. rewrite Ep; cbn [bind fst snd].
  destruct (change_ply_ok c 100 Hok ss0 q0 Hn Hpal _ _ _ _ _ _ _ K Li1 (nth_error_In _ _ Ea) (nth_error_In _ _ Eb)) as [ss' [q' [rest [Ec [K' [Li2 [P1 [P2 P3]]]]]]]].
  rewrite Ec; cbn [bind fst snd]. eexists; split; [reflexivity|]. cbn [fst snd].
  assert (D : (dist (lampamA_ply_queue c cos_sin ss' q') == dist (vadd (m_lp st) sh))%Q).
  { apply Hext. intros i. rewrite (lp_change c cos_sin ss0 _ _ _ _ [a] [b] rest i (proj1 K) (proj1 K') P3 P1 P2). unfold vadd. rewrite Elp, Hsh. unfold vsum, sumQ; cbn. ring. }
  pose proof (Hext _ _ Elp) as D'. split; [|split].
  - split; [exact K'|]. split; [congruence|]. rewrite D. revert G O; unfold em20; lra.
  - intros d Na Na'. rewrite <- (Ev d Na Na'). rewrite (count_perm d _ _ P1), (count_perm (-d) _ _ P1), (count_perm d _ _ P2), (count_perm (-d) _ _ P2), !ccons.
    assert (Cp : forall e, e = 0 \/ e = 90 -> (if e =? d then 1 else 0) = (if e =? - d then 1 else 0)).
    { intros e He. destruct (Z.eqb_spec e d), (Z.eqb_spec e (-d)); lia. }
    rewrite (Cp a), (Cp b) by lia. lia.
  - rewrite D, <- D', <- Eo. revert G; unfold em20; lra.
Qed.

Lemma index_pos_in a : In a (pos_angles c) -> exists k, index_pos c a = Ok k.
Proof.
  intros H. unfold index_pos. destruct (index_of a (pos_angles c)) eqn:E; [eauto|]. apply index_of_none in E. contradiction.
Qed.

Lemma run_abdalla_ipo fuel : In 0 set -> In 90 set ->
  match repair_10_Abdalla_ipo c cos_sin dist fuel ss0 q0 with
  | Ok (ss, q) => reaches ss q /\ even_pairs c ss0 q0 ss q
  | Err e => e = OutOfFuel
  end.
Proof.
  intros H0 H90. unfold repair_10_Abdalla_ipo. destruct start_dist_ok as [st [E [Hh _]]]. rewrite E; cbn [bind].
  assert (P0 : In 0 (pos_angles c)) by (unfold pos_angles; rewrite uniq_in, in_map_iff; exists 0; auto).
  assert (P90 : In 90 (pos_angles c)) by (unfold pos_angles; rewrite uniq_in, in_map_iff; exists 90; auto).
  assert (Ls : length (shifts_1 c cos_sin np) = length (pos_angles c)) by apply map_length.
  pose proof (approach_run (length (pos_angles c)) (dist_options dist (shifts_1 c cos_sin np)) (couple_step c cos_sin order np) held_pairs) as A.
  assert (0 < length (pos_angles c))%nat by (destruct (pos_angles c); [destruct P0|cbn; lia]).
  assert (L : forall x, length (dist_options dist (shifts_1 c cos_sin np) x) = (length (pos_angles c) * length (pos_angles c))%nat) by (intros x; rewrite dist_options_length, Ls; reflexivity).
  specialize (A H L couple_step_ok fuel (dist_options dist (shifts_1 c cos_sin np) (m_lp st)) st Hh (table_0 _ _ L st)).
  destruct (approach _ _ _ _ _ _) as [s|e]; cbn [bind]; [|exact A]. destruct A as [A1 A2].
  destruct (index_pos_in 0 P0) as [i0 I0]. destruct (index_pos_in 90 P90) as [i90 I90]. rewrite I0, I90; cbn [bind].
  apply index_pos_ok in I0, I90.
  destruct (In_nth_error _ _ H0) as [k0 E0]. destruct (In_nth_error _ _ H90) as [k90 E90].
  rewrite (proj2 (lookup_ok c Hset 0 k0 ltac:(lia)) E0), (proj2 (lookup_ok c Hset 90 k90 ltac:(lia)) E90); cbn [bind].
  destruct (exchange_ok s k0 k90 0 90 (vscale (1 # 2) (vsub (vnth (shifts_1 c cos_sin np) i90) (vnth (shifts_1 c cos_sin np) i0))) A1 A2 (or_introl (conj eq_refl eq_refl)) E0 E90) as [o [Eo Ho]].
  { intros i. unfold vscale, vsub. rewrite (shifts_1_nth c cos_sin ss0 _ _ I0), (shifts_1_nth c cos_sin ss0 _ _ I90). unfold vscale, vadd, partner; cbn. ring. }
  rewrite Eo; cbn [bind]. destruct o as [[s1 q1]|]; [cbn [fst snd] in Ho; tauto|].
  destruct (exchange_ok s k90 k0 90 0 (vscale (1 # 2) (vsub (vnth (shifts_1 c cos_sin np) i0) (vnth (shifts_1 c cos_sin np) i90))) A1 A2 (or_intror (conj eq_refl eq_refl)) E90 E0) as [o [Eo' Ho']].
  { intros i. unfold vscale, vsub. rewrite (shifts_1_nth c cos_sin ss0 _ _ I0), (shifts_1_nth c cos_sin ss0 _ _ I90). unfold vscale, vadd, partner; cbn. ring. }
  rewrite Eo'; cbn [bind]. destruct o as [[s1 q1]|]; [cbn [fst snd] in Ho'; tauto|].
  split; [apply held_reaches; [apply A1|exact A2]|apply A1].
Qed.
End State.
