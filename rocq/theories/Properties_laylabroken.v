(* Properties_laylabroken.v - property theorems C96: the search of LAYLA that is asked to break the
   10% rule. *)
From Coq Require Import Lqa Qround.
From Verif Require Import Base Divers DiversProofs Constraints Guidelines SpecGuidelines GuidelinesProofs PdlTools GroupFilters Properties_filters Pruning Moments Search SearchProofs
  Properties_search Layla LaylaSearch Properties_laylabeam RepairDisoProofs Inputs LaylaInputs LaylaBroken.
Local Open Scope Z_scope.

Section PROOFS.
Variable pb : lproblem.
Variables (last_group : bool) (middle_ply group_size : nat) (ss_bot ss_top : list Z) (levels : list nat).
Variables (lp0 : lampam) (counts0 : list Q).
Variable keep : list Q -> result bool.
Notation c := (l_cons pb).
Notation snd_ := (sound pb last_group middle_ply group_size ss_bot ss_top levels lp0 counts0).

(** a node of a level of the search: sound, and its ply counts passed the test *)
Definition tested (k : nat) (nd : lnode) : Prop :=
  exists h, length h = k /\ snd_ h nd /\ (k <> 0%nat -> keep (ln_counts nd) = Ok true).

Lemma b_children_tested local nd kids : (local < group_size)%nat -> (local < length levels)%nat -> tested local nd ->
  b_children pb last_group middle_ply group_size ss_bot ss_top keep local (nth local levels 0%nat) nd = Ok kids ->
  forall k, In k kids -> tested (S local) k.
Proof.
  intros Hg Hlv [h [Hl [[N L] _]]] E k Hk.
  assert (At : at_end last_group group_size (length h) = false) by (unfold at_end; rewrite Hl; destruct (Nat.eqb_spec local group_size); [lia|apply andb_false_r]).
  rewrite At in L. unfold b_children in E. apply bind_inv in E as [r [P E]]. destruct r as [angs|]; [|injection E as <-; destruct Hk].
  apply bind_inv in E as [u [G E]]. apply guard_inv in G. apply bind_inv in E as [row [R E]]. apply bind_inv in E as [stay [F E]]. apply bind_inv in E as [est [M E]]. injection E as <-.
  apply in_map_iff in Hk as [p [<- Hp]]. apply mapM_inv in M.
  assert (X : exists kid, In kid stay /\ l_estimate pb last_group middle_ply group_size ss_bot ss_top local (nth local levels 0%nat) kid = Ok p).
  { clear -M Hp. induction M as [|x y lx ly H M IH]; [destruct Hp|]. destruct Hp as [<-|Hp]; [exists x; split; [now left|exact H]|].
    destruct (IH Hp) as [kid [I H']]. exists kid. split; [now right|exact H']. }
  destruct X as [kid [Ik Ek]]. destruct (filterR_in _ _ _ _ F Ik) as [Im Kk]. apply in_map_iff in Im as [a [<- Ia]]. apply in_rev in Ia.
  assert (Rw : nth (nth local levels 0%nat) (l_rows pb) (fun _ => lampam_zero) = row).
  { destruct (get_bound _ _ _ R) as [_ Er]. symmetry. apply Er. }
  assert (Ch : choice pb ss_bot ss_top (nth local levels 0%nat) h a).
  { exists angs. split; [|split; [exact Ia|]].
    - destruct N as [_ [<- [<- _]]]. exact P.
    - intros Q. assert (existsb (fun a => match ind_angle (set_of_angles c) a with Some _ => false | None => true end) angs = true) as T; [|congruence].
      apply existsb_exists. exists a. split; [exact Ia|]. rewrite Q. reflexivity. }
  destruct (child_of pb middle_ply group_size ss_bot ss_top levels lp0 counts0 local row h nd a Hl Hg Hlv Rw Ch N L) as [N1 L1].
  assert (Hl1 : length (h ++ [a]) = S local) by (rewrite app_length; cbn; lia).
  destruct (estimate_spec pb last_group middle_ply group_size ss_bot ss_top levels lp0 counts0 local _ (h ++ [a]) _ p Hl1 N1 L1 Ek) as [S1 [_ S2]].
  exists (h ++ [a]). split; [exact Hl1|]. split.
  - unfold l_score. destruct S1 as [N2 R2]. split; [eapply node_of_same; [|exact N2]; repeat split|]. destruct (at_end _ _ _); exact R2.
  - intros _. unfold l_score. cbn [ln_counts]. destruct S2 as [_ [_ <-]]. exact Kk.
Qed.

Lemma b_expand_tested local : (local < group_size)%nat -> (local < length levels)%nat ->
  forall olds news out, (forall x, In x olds -> tested local x) -> (forall x, In x news -> tested (S local) x) ->
  b_expand pb last_group middle_ply group_size ss_bot ss_top keep local (nth local levels 0%nat) (length olds) (olds ++ news) = Ok out ->
  forall x, In x out -> tested (S local) x.
Proof.
  intros Hg Hlv. induction olds as [|nd olds IH]; intros news out Ho Hn E; [cbn in E; injection E as <-; exact Hn|].
  cbn [length app b_expand] in E. apply bind_inv in E as [kids [K E]]. apply bind_inv in E as [nodes [P E]].
  assert (X : exists kids', nodes = olds ++ (news ++ kids') /\ forall k, In k kids' -> In k kids).
  { destruct kids as [|k0 kids]; [injection P as <-; exists []; rewrite app_nil_r; split; [reflexivity|intros k []]|].
    apply l_local_pruning_sub in P as [fs [-> _]]. rewrite <- app_assoc. eexists. split; [reflexivity|]. intros k Hk. apply kept_In in Hk. exact Hk. }
  destruct X as [kids' [-> Hk']]. apply (IH (news ++ kids') out); auto.
  - intros x Hx. apply Ho. now right.
  - intros x Hx. apply in_app_or in Hx as [Hx|Hx]; [auto|]. eapply b_children_tested; eauto. apply Ho. now left.
Qed.

Lemma b_levels_tested : forall k local nodes out, (local + k <= group_size)%nat -> (forall x, In x nodes -> tested local x) ->
  b_levels pb last_group middle_ply group_size ss_bot ss_top keep levels k local nodes = Ok out -> forall x, In x out -> tested (local + k) x.
Proof.
  induction k as [|k IH]; intros local nodes out B H E; cbn [b_levels] in E; [injection E as <-; rewrite Nat.add_0_r; exact H|].
  apply bind_inv in E as [level [G E]]. destruct (get_bound _ _ _ G) as [Bl El]. rewrite (El 0%nat) in E. clear El G level.
  apply bind_inv in E as [nodes1 [X E]]. apply bind_inv in E as [nodes2 [Gp E]].
  replace (local + S k)%nat with (S local + k)%nat by lia. apply (IH (S local) nodes2 out); [lia| |exact E].
  intros x Hx. apply (l_global_sub _ _ _ _ _ _ Gp) in Hx.
  assert (X' : b_expand pb last_group middle_ply group_size ss_bot ss_top keep local (nth local levels 0%nat) (length nodes) (nodes ++ []) = Ok nodes1) by (rewrite app_nil_r; exact X).
  apply (b_expand_tested local ltac:(lia) Bl nodes [] nodes1 H ltac:(intros y []) X' x Hx).
Qed.
End PROOFS.

Lemma best_in nodes nd : l_best nodes = Ok nd -> In nd nodes.
Proof.
  unfold l_best. intros Bt. apply bind_inv in Bt as [i [A Bt]]. apply bind_inv in Bt as [nd' [G Bt]]. apply bind_inv in Bt as [u [Gd Bt]]. injection Bt as ->.
  destruct (get_bound _ _ _ G) as [Bi Ei]. rewrite (Ei nd). apply nth_In. exact Bi.
Qed.
Lemma b_leaves pb last_group middle gs ss_bot ss_top keep levels lp counts leaves best : (1 <= gs)%nat ->
  b_beam_search pb last_group middle gs ss_bot ss_top keep levels lp counts = Ok (leaves, best) ->
  In best leaves /\ forall x, In x leaves -> tested pb last_group middle gs ss_bot ss_top levels lp counts keep gs x.
Proof.
  intros Hg H. unfold b_beam_search in H. apply bind_inv in H as [nodes [L H]]. apply bind_inv in H as [nd [Bt H]]. injection H as -> ->.
  split; [exact (best_in _ _ Bt)|]. intros x Hx. change gs with (0 + gs)%nat at 2.
  eapply (b_levels_tested pb last_group middle gs ss_bot ss_top levels lp counts keep gs 0); [lia| |exact L|exact Hx].
  intros y [<-|[]]. destruct (start_level pb last_group middle gs ss_bot ss_top levels lp counts Hg) as [h [Hl [S1 _]]].
  exists h. split; [exact Hl|]. split; [exact S1|congruence].
Qed.

(* ------------------------------------------------------------------ *)
(** ** The ply counts of the full laminate *)
Definition weights (c : cons) (j : nat) (l : list Z) : Q := sumQ (map (weight_of c j) l).
Lemma weights_app c j l m : (weights c j (l ++ m) == weights c j l + weights c j m)%Q.
Proof.
  unfold weights. rewrite map_app. induction (map (weight_of c j) l) as [|x t IH]; [change (sumQ []) with 0%Q; cbn [app]; ring|].
  change (sumQ ((x :: t) ++ map (weight_of c j) m)) with (x + sumQ (t ++ map (weight_of c j) m))%Q. change (sumQ (x :: t)) with (x + sumQ t)%Q. rewrite IH. ring.
Qed.
Lemma weights_rev c j l : (weights c j (rev l) == weights c j l)%Q.
Proof. induction l as [|a l IH]; [reflexivity|]. cbn [rev]. rewrite weights_app, IH. change (a :: l) with ([a] ++ l). rewrite weights_app. ring. Qed.
Lemma weights_one c j a : (weights c j [a] == weight_of c j a)%Q.
Proof. unfold weights. cbn [map]. change (sumQ [weight_of c j a]) with (weight_of c j a + 0)%Q. ring. Qed.
Lemma weight_nonneg c j a : (0 <= weight_of c j a)%Q.
Proof. unfold weight_of. destruct (is_angle c j a); lra. Qed.

(** the number of plies with the angle [a] *)
Definition plies (l : list Z) (a : Z) : Z := Z.of_nat (count_occ Z.eq_dec l a).
Lemma plies_weights c j a l : ind_angle (set_of_angles c) a = Some j -> (inject_Z (plies l a) <= weights c j l)%Q.
Proof.
  intros E. unfold plies. induction l as [|b l IH]; [apply Qle_refl|].
  assert (W : (weights c j (b :: l) == weight_of c j b + weights c j l)%Q) by (change (b :: l) with ([b] ++ l); rewrite weights_app, weights_one; reflexivity).
  rewrite W. pose proof (weight_nonneg c j b). cbn [count_occ]. destruct (Z.eq_dec b a) as [->|_]; [|lra].
  assert (weight_of c j a = 1%Q) as -> by (unfold weight_of, is_angle; rewrite E, Nat.eqb_refl; reflexivity).
  rewrite Nat2Z.inj_succ. unfold Z.succ. rewrite inject_Z_plus. change (inject_Z 1) with 1%Q. lra.
Qed.

Lemma del_mid (l r : list Z) x : del (length l) (l ++ x :: r) = l ++ r.
Proof. induction l as [|y l IH]; cbn; [reflexivity|]. rewrite IH. reflexivity. Qed.
(** a full laminate is the lower half and its mirror image, without the middle ply once when there
    is one *)
Lemma full_halves pb ss_bot nd : sym (l_cons pb) = true -> ln_bot nd <> [] ->
  let middle := middle_ply_index true (l_n pb) in
  let full := l_full pb middle ss_bot [] nd in
  length full = l_n pb ->
  let half := ss_bot ++ ln_bot nd in
  (middle = 0%nat /\ full = half ++ rev half) \/
  (middle <> 0%nat /\ exists g x, half = g ++ [x] /\ x = last (ln_bot nd) 0 /\ full = half ++ rev g).
Proof.
  intros Hs Hne middle full L half. unfold full, l_full in *. rewrite Hs in *.
  assert (E : ss_bot ++ ln_bot nd ++ rev (ln_bot nd) ++ rev ss_bot = half ++ rev half) by (unfold half; rewrite rev_app_distr, <- !app_assoc; reflexivity).
  cbv zeta in *. rewrite E in *. clear E.
  assert (Hf : (1 <= length half)%nat) by (unfold half; rewrite app_length; destruct (ln_bot nd); [congruence|cbn; lia]).
  destruct (Nat.odd (l_n pb)) eqn:Eo.
  - right. assert (Hm : middle = S (Nat.div2 (l_n pb))).
    { unfold middle, middle_ply_index. rewrite Eo. cbn [andb]. apply Nat.odd_spec in Eo as [m Em]. rewrite Em. replace (2 * m + 1 + 1)%nat with (S m * 2)%nat by lia.
      rewrite Nat.div_mul by lia. replace (2 * m + 1)%nat with (S (2 * m)) by lia. rewrite Nat.div2_succ_double. reflexivity. }
    rewrite Hm in *. cbn [Nat.eqb] in *. split; [discriminate|].
    apply Nat.odd_spec in Eo as [m Em]. assert (Dm : Nat.div2 (l_n pb) = m) by (rewrite Em; replace (2 * m + 1)%nat with (S (2 * m)) by lia; apply Nat.div2_succ_double).
    rewrite Dm in *. 
    assert (Lh : length half = S m).
    { destruct (Nat.lt_ge_cases (S m) (length (half ++ rev half))) as [Q|Q].
      - assert (Ld : length (del (S m) (half ++ rev half)) = (length (half ++ rev half) - 1)%nat).
        { clear -Q. revert Q. generalize (S m) (half ++ rev half). intros k l. revert k. induction l as [|x l IH]; intros [|k] Q; cbn in *; try lia.
          rewrite IH by lia. destruct l; cbn in *; lia. }
        rewrite Ld, app_length, rev_length, Em in L. lia.
      - exfalso. assert (D : forall k (l : list Z), (length l <= k)%nat -> del k l = l).
        { induction k as [|k IH]; intros [|x l] Hk; cbn in *; try lia; auto. f_equal. apply IH. lia. }
        rewrite D, app_length, rev_length, Em in L by exact Q. lia. }
    destruct (exists_last (l := half)) as [g [x Eg]]; [intros Q2; rewrite Q2 in Hf; cbn in Hf; lia|]. exists g, x. split; [exact Eg|]. split.
    + assert (X : last half 0 = x) by (rewrite Eg; apply last_last). rewrite <- X. unfold half. clear -Hne.
      induction ss_bot as [|y l IH]; [reflexivity|]. cbn [app]. destruct (l ++ ln_bot nd) eqn:E; [apply app_eq_nil in E as [_ E]; congruence|]. rewrite <- E in *. cbn [last]. rewrite E in *. exact IH.
    + rewrite <- Lh. rewrite Eg at 3. rewrite rev_app_distr. cbn [rev app]. apply del_mid.
  - left. assert (Hm : middle = 0%nat) by (unfold middle, middle_ply_index; rewrite Eo; reflexivity). rewrite Hm in *. split; reflexivity.
Qed.

(** what holds of the leaves of the last group *)
Definition leaf_ok (pb : lproblem) (keep : list Q -> result bool) (x : lnode) : Prop :=
  exists full, length full = l_n pb /\ rev full = full /\ l_repair pb full = Ok (ln_final x, ln_ok x) /\ keep (ln_counts x) = Ok true /\
    forall j, (j < length (set_of_angles (l_cons pb)))%nat -> (weights (l_cons pb) j full == 2 * nth j (ln_counts x) 0)%Q.
Definition counted (c : cons) (counts : list Q) (ss : list Z) : Prop :=
  length counts = length (set_of_angles c) /\ forall j, (j < length counts)%nat -> (nth j counts 0 == weights c j ss)%Q.

Lemma last_group_ok pb keep gs ss_bot levels lp counts x : sym (l_cons pb) = true -> (1 <= gs)%nat -> counted (l_cons pb) counts ss_bot ->
  tested pb true (middle_ply_index true (l_n pb)) gs ss_bot [] levels lp counts keep gs x -> leaf_ok pb keep x.
Proof.
  intros Hs Hg [CL CW] [h [Hl [[[P [B [T [L C]]]] E] K]]].
  unfold at_end in E. rewrite Hl, Nat.eqb_refl in E. cbn [andb] in E. destruct E as [E1 [r [ok [E2 [E3 [E4 E5]]]]]].
  unfold bottom_of in B. rewrite Hs in B.
  assert (Ne : ln_bot x <> []) by (rewrite B; destruct h; [cbn in Hl; lia|discriminate]).
  pose proof (full_halves pb ss_bot x Hs Ne E1) as F. cbv zeta in F.
  set (full := l_full pb (middle_ply_index true (l_n pb)) ss_bot [] x) in *. exists full. rewrite E3, E4.
  split; [exact E1|]. split; [|split; [exact E2|split; [apply K; lia|]]].
  - destruct F as [[_ ->]|[_ [g [y [-> [_ ->]]]]]]; rewrite !rev_app_distr, ?rev_involutive; [reflexivity|]. cbn [rev app]. rewrite <- app_assoc. reflexivity.
  - intros j Hj. rewrite <- CL in Hj. rewrite (C j Hj), (CW j Hj). unfold plies_of. rewrite Hl, Nat.eqb_refl, andb_true_r. fold (weights (l_cons pb) j h).
    rewrite <- B. destruct F as [[-> ->]|[Hm [g [y [Eg [Ey ->]]]]]].
    + cbn [Nat.eqb negb]. rewrite weights_app, weights_rev, weights_app. ring.
    + destruct (Nat.eqb_spec (middle_ply_index true (l_n pb)) 0) as [Q|_]; [congruence|]. cbn [negb]. rewrite <- Ey.
      rewrite weights_app, weights_rev.
      assert (W : (weights (l_cons pb) j g + weight_of (l_cons pb) j y == weights (l_cons pb) j ss_bot + weights (l_cons pb) j (ln_bot x))%Q).
      { rewrite <- weights_app, Eg, weights_app, weights_one. reflexivity. }
      rewrite Eg, weights_app, weights_one. 
      assert (W2 : (weights (l_cons pb) j g == weights (l_cons pb) j ss_bot + weights (l_cons pb) j (ln_bot x) - weight_of (l_cons pb) j y)%Q) by lra.
      rewrite W2. field.
Qed.

Lemma b_groups_ok pb keep : sym (l_cons pb) = true ->
  forall groups lp counts ss_bot leaves best,
  (forall g, In g groups -> 1 <= snd (fst g)) -> counted (l_cons pb) counts ss_bot ->
  b_groups pb keep groups lp counts ss_bot [] = Ok (leaves, best) ->
  In best leaves /\ forall x, In x leaves -> leaf_ok pb keep x.
Proof.
  intros Hs. induction groups as [|[[lv size] assumed] rest IH]; intros lp counts ss_bot leaves best Hg HC H; [discriminate|].
  assert (G1 : (1 <= Z.to_nat size)%nat) by (specialize (Hg _ (or_introl eq_refl)); cbn in Hg; lia).
  destruct rest as [|g2 rest].
  - cbn [b_groups] in H. destruct (b_leaves _ _ _ _ _ _ _ _ _ _ _ _ G1 H) as [B A]. split; [exact B|]. intros x Hx.
    unfold l_middle in A. rewrite Hs in A. eapply last_group_ok; eauto.
  - change (b_groups pb keep ((lv, size, assumed) :: g2 :: rest) lp counts ss_bot []) with
      (do r <- b_beam_search pb false 0 (Z.to_nat size) ss_bot [] keep lv (lampam_sub lp assumed) counts;
       b_groups pb keep (g2 :: rest) (ln_lampam (snd r)) (ln_counts (snd r)) (ss_bot ++ ln_bot (snd r)) (ln_top (snd r) ++ [])) in H.
    apply bind_inv in H as [[lf nd] [S1 H]]. cbn [snd] in H. destruct (b_leaves _ _ _ _ _ _ _ _ _ _ _ _ G1 S1) as [B A].
    destruct (A nd B) as [h [Hl [[[P [Bt [T [L C]]]] _] _]]]. unfold bottom_of in Bt. unfold top_of in T. rewrite Hs in Bt, T. rewrite T in H. cbn [app] in H.
    apply (IH (ln_lampam nd) (ln_counts nd) (ss_bot ++ ln_bot nd) leaves best).
    + intros g Hgi. apply Hg. now right.
    + destruct HC as [CL CW]. split; [congruence|]. intros j Hj. rewrite L in Hj. rewrite (C j Hj), (CW j Hj), weights_app, Bt.
      unfold plies_of. cbn [negb andb Nat.eqb]. fold (weights (l_cons pb) j h). ring.
    + exact H.
Qed.

(* ------------------------------------------------------------------ *)
(** ** Specification *)

(** the minimum of the 10% rule that the number drawn for an outer step stands for: the share of the
    plies with these angles must be at least this *)
Definition drawn_minimum (ask : cons) (drawn : Z) : list Z * Q :=
  match drawn with
  | 0 => ([0], percent_0 ask) | 1 => ([90], percent_90 ask) | 2 => ([45], percent_45 ask) | 3 => ([-45], percent_135 ask)
  | _ => ([45; -45], percent_45_135 ask)
  end.
Definition plies_with (angles l : list Z) : Z := fold_right Z.add 0 (map (plies l) angles).
(** the laminate has less of them; [spare]: even with so many more plies of them it would *)
Definition too_few (ask : cons) (drawn spare : Z) (l : list Z) : Prop :=
  let '(angles, share) := drawn_minimum ask drawn in
  (inject_Z (plies_with angles l + spare) < share * inject_Z (Z.of_nat (length l)))%Q.

Lemma ceil_half L : Qceiling (inject_Z L / 2) = (L + 1) / 2.
Proof.
  unfold Qceiling, Qfloor, Qdiv, Qmult, Qinv, Qopp, inject_Z. cbn. rewrite Z.mul_1_r.
  assert (2 * ((L + 1) / 2) <= L + 1 < 2 * ((L + 1) / 2) + 2) by (pose proof (Z.mul_div_le (L + 1) 2); pose proof (Z.mul_succ_div_gt (L + 1) 2); lia).
  pose proof (Z.mul_div_le (- L) 2). pose proof (Z.mul_succ_div_gt (- L) 2). lia.
Qed.
Lemma index_lt (l : list Z) a k : ind_angle l a = Some k -> (k < length l)%nat.
Proof.
  unfold ind_angle. intros H. destruct (_ && _)%bool; apply Uniq.index_of_some in H as [H _]; exact H.
Qed.
Lemma counts_of_ok c counts a x : counts_of c counts a = Ok x -> exists k, ind_angle (set_of_angles c) a = Some k /\ (k < length (set_of_angles c))%nat /\ x = nth k counts 0%Q.
Proof. unfold counts_of. destruct (ind_angle _ a) as [k|] eqn:E; [|discriminate]. intros [= <-]. exists k. split; [reflexivity|]. split; [exact (index_lt _ _ _ E)|reflexivity]. Qed.
(** half the plies plus one below the limit *)
Lemma below_half p n (m : Z) (x : Q) : (inject_Z m <= 2 * x)%Q ->
  negb (Qle_bool (inject_Z (Qceiling (inject_Z (Qceiling (p * inject_Z (Z.of_nat n))) / 2))) (x + 1)) = true ->
  0 <= m -> (inject_Z (m + 1) < p * inject_Z (Z.of_nat n))%Q /\ (2 < p * inject_Z (Z.of_nat n))%Q.
Proof.
  intros Hx Hb Hm. rewrite ceil_half in Hb. set (q := (p * inject_Z (Z.of_nat n))%Q) in *. set (L := Qceiling q) in *.
  apply negb_true_iff in Hb. assert (B : (x + 1 < inject_Z ((L + 1) / 2))%Q) by (apply Qnot_le_lt; intros Q; apply Qle_bool_iff in Q; congruence).
  assert (B2 : (inject_Z (m + 2) < inject_Z (2 * ((L + 1) / 2)))%Q) by (rewrite inject_Z_plus, inject_Z_mult; change (inject_Z 2) with 2%Q; lra).
  rewrite <- Zlt_Qlt in B2. pose proof (Z.mul_div_le (L + 1) 2).
  assert (C : forall z, z < L -> (inject_Z z < q)%Q).
  { intros z Hz. apply Qnot_le_lt. intros Q. apply Qceiling_resp_le in Q. rewrite Qceiling_Z in Q. fold L in Q. lia. }
  split; apply C; lia.
Qed.
Lemma stays_few pb ask drawn full counts : sym (l_cons pb) = true -> 0 <= drawn <= 4 ->
  length full = l_n pb ->
  (forall j, (j < length (set_of_angles (l_cons pb)))%nat -> (weights (l_cons pb) j full == 2 * nth j counts 0)%Q) ->
  stays (l_cons pb) ask (l_n pb) drawn counts = Ok true ->
  too_few ask drawn 1 full /\ (2 < snd (drawn_minimum ask drawn) * inject_Z (Z.of_nat (l_n pb)))%Q.
Proof.
  intros Hs Hd Hl W H. unfold stays in H. apply bind_inv in H as [x [X H]]. injection H as H. unfold asked_plies in H. rewrite Hs in H.
  assert (P0 : forall a, 0 <= plies full a) by (intros a; unfold plies; lia).
  assert (One : forall a y, counts_of (l_cons pb) counts a = Ok y -> (inject_Z (plies full a) <= 2 * y)%Q).
  { intros a y Y. apply counts_of_ok in Y as (k & Ek & Lk & ->). rewrite <- (W k Lk). apply plies_weights. exact Ek. }
  assert (D : drawn = 0 \/ drawn = 1 \/ drawn = 2 \/ drawn = 3 \/ drawn = 4) by lia.
  unfold too_few. rewrite Hl. destruct D as [->|[->|[->|[->| ->]]]]; cbn [Z.eqb Pos.eqb asked_percent drawn_minimum snd fst plies_with map fold_right] in *; rewrite ?Z.add_0_r.
  1-4: apply (below_half _ _ _ x); [apply One; exact X|exact H|apply P0].
  apply bind_inv in X as [y [Y X]]. apply bind_inv in X as [z [Z' X]]. injection X as <-.
  apply (below_half _ _ _ (y + z)%Q); [|exact H|pose proof (P0 45); pose proof (P0 (-45)); lia].
  rewrite inject_Z_plus. pose proof (One _ _ Y). pose proof (One _ _ Z'). lra.
Qed.

(* ------------------------------------------------------------------ *)
(** ** C96 *)
Lemma start_counted c : counted c (repeat 0%Q (length (set_of_angles c))) [].
Proof. split; [apply repeat_length|]. intros j _. rewrite nth_repeat. reflexivity. Qed.
Lemma b_step_ok pb ask drawn levels sizes assumed leaves best :
  rule_10_percent ask = true -> (forall s, In s sizes -> 1 <= s) ->
  b_step pb (Some ask) drawn levels sizes assumed = Ok (leaves, best) ->
  sym (l_cons pb) = true /\ In best leaves /\ forall x, In x leaves -> leaf_ok pb (stays (l_cons pb) ask (l_n pb) drawn) x.
Proof.
  intros R Hz H. unfold b_step in H. apply bind_inv in H as [u [G H]]. apply guard_inv, negb_false_iff in G. rewrite R in H.
  split; [exact G|]. eapply b_groups_ok; [exact G| |apply start_counted|exact H].
  intros [[lv s] a] Hg. apply in_combine_l in Hg. apply in_combine_r in Hg. cbn [fst snd]. auto.
Qed.

(** every laminate that the search hands to the repair is symmetric, complete and has too few plies
    of the drawn orientation, even with one more ply of it *)
Theorem C96_broken_before_repair : forall pb ask drawn levels sizes assumed leaves best,
  rule_10_percent ask = true -> 0 <= drawn <= 4 -> (forall s, In s sizes -> 1 <= s) ->
  b_step pb (Some ask) drawn levels sizes assumed = Ok (leaves, best) ->
  In best leaves /\
  forall x, In x leaves -> exists before, l_repair pb before = Ok (ln_final x, ln_ok x) /\ length before = l_n pb /\ rev before = before /\
    too_few ask drawn 1 before.
Proof.
  intros pb ask drawn levels sizes assumed leaves best R D Z H. destruct (b_step_ok _ _ _ _ _ _ _ _ R Z H) as (Hs & B & A). split; [exact B|].
  intros x Hx. destruct (A x Hx) as (full & Hl & Hr & Hp & K & W). exists full. repeat split; auto.
  exact (proj1 (stays_few pb ask drawn full (ln_counts x) Hs D Hl W K)).
Qed.
Print Assumptions C96_broken_before_repair.

(** if the repair keeps the plies, the delivered laminate breaks the rule *)
Theorem C96_delivered_partial : forall pb ask drawn levels sizes assumed leaves best,
  rule_10_percent ask = true -> 0 <= drawn <= 4 -> (forall s, In s sizes -> 1 <= s) ->
  (forall ss r ok, l_repair pb ss = Ok (r, ok) -> Permutation.Permutation ss r) ->
  b_step pb (Some ask) drawn levels sizes assumed = Ok (leaves, best) ->
  too_few ask drawn 1 (ln_final best).
Proof.
  intros pb ask drawn levels sizes assumed leaves best R D Z P H. destruct (C96_broken_before_repair _ _ _ _ _ _ _ _ R D Z H) as [B A].
  destruct (A best B) as (before & E & L & _ & F). specialize (P _ _ _ E).
  assert (C : forall a, plies (ln_final best) a = plies before a).
  { intros a. unfold plies. f_equal. symmetry. apply Permutation.Permutation_count_occ. exact P. }
  unfold too_few in *. destruct (drawn_minimum ask drawn) as [angles share]. rewrite <- (Permutation.Permutation_length P).
  unfold plies_with in *. rewrite (map_ext _ (plies before)) by exact C. exact F.
Qed.
Print Assumptions C96_delivered_partial.

(** the search cannot break a minimum of two plies or less, the default 0 among them: an outer step
    that draws it fails *)
Theorem C96_small_minimum_refuted : forall pb ask drawn levels sizes assumed,
  rule_10_percent ask = true -> 0 <= drawn <= 4 -> (forall s, In s sizes -> 1 <= s) ->
  (snd (drawn_minimum ask drawn) * inject_Z (Z.of_nat (l_n pb)) <= 2)%Q ->
  exists e, b_step pb (Some ask) drawn levels sizes assumed = Err e.
Proof.
  intros pb ask drawn levels sizes assumed R D Z M. destruct (b_step pb (Some ask) drawn levels sizes assumed) as [[leaves best]|e] eqn:H; [|eauto]. exfalso.
  destruct (b_step_ok _ _ _ _ _ _ _ _ R Z H) as (Hs & B & A). destruct (A best B) as (full & Hl & Hr & Hp & K & W).
  pose proof (proj2 (stays_few pb ask drawn full (ln_counts best) Hs D Hl W K)) as C. lra.
Qed.
Print Assumptions C96_small_minimum_refuted.

(** asking for any other rule to be broken changes nothing *)
Theorem C96_other_rules_refuted : forall pb ask drawn levels sizes assumed,
  rule_10_percent ask = false -> sym (l_cons pb) = true ->
  b_step pb (Some ask) drawn levels sizes assumed = b_step pb None drawn levels sizes assumed.
Proof. intros pb ask drawn levels sizes assumed R S. unfold b_step. rewrite S, R. reflexivity. Qed.
Print Assumptions C96_other_rules_refuted.
(** and a laminate that is not symmetric is refused *)
Theorem C96_symmetric_only : forall pb ask drawn levels sizes assumed,
  sym (l_cons pb) = false -> b_step pb (Some ask) drawn levels sizes assumed = Err (Raised Other).
Proof. intros pb ask drawn levels sizes assumed S. unfold b_step. rewrite S. reflexivity. Qed.
Print Assumptions C96_symmetric_only.

(** when every child stays the search is the usual one *)
Theorem C96_same_search : forall pb groups lp counts ss_bot ss_top keep, (forall l, keep l = Ok true) ->
  b_groups pb keep groups lp counts ss_bot ss_top = l_groups pb groups lp counts ss_bot ss_top.
Proof.
  intros pb groups lp counts ss_bot ss_top keep K.
  assert (F : forall (l : list lnode), filterR (fun kid => keep (ln_counts kid)) l = Ok l).
  { induction l as [|x l IH]; [reflexivity|]. cbn [filterR]. rewrite K. cbn [bind]. rewrite IH. reflexivity. }
  assert (C : forall lg m gs sb st local level nd, b_children pb lg m gs sb st keep local level nd = l_children pb lg m gs sb st local level nd).
  { intros. unfold b_children, l_children. destruct (l_pruning _ _ _ _ _ _ _ _) as [[angs|]|]; cbn [bind]; [|reflexivity|reflexivity].
    destruct (guard _ _); cbn [bind]; [|reflexivity]. destruct (get _ _) as [row|]; cbn [bind]; [|reflexivity]. rewrite F. reflexivity. }
  assert (E : forall lg m gs sb st local level k nodes, b_expand pb lg m gs sb st keep local level k nodes = l_expand pb lg m gs sb st local level k nodes).
  { intros lg m gs sb st local level. induction k as [|k IH]; intros nodes; [reflexivity|]. cbn [b_expand l_expand]. destruct nodes as [|nd rest]; [reflexivity|].
    rewrite C. destruct (l_children _ _ _ _ _ _ _ _ _) as [kids|]; cbn [bind]; [|reflexivity].
    destruct (match kids with [] => Ok rest | _ => _ end) as [ns|]; cbn [bind]; [apply IH|reflexivity]. }
  assert (V : forall lg m gs sb st lv k local nodes, b_levels pb lg m gs sb st keep lv k local nodes = l_levels pb lg m gs sb st lv k local nodes).
  { intros lg m gs sb st lv. induction k as [|k IH]; intros local nodes; [reflexivity|]. cbn [b_levels l_levels]. destruct (get lv _) as [level|]; cbn [bind]; [|reflexivity].
    rewrite E. destruct (l_expand _ _ _ _ _ _ _ _ _ _) as [ns|]; cbn [bind]; [|reflexivity]. destruct (l_global_pruning _ _ _ _ _) as [ns'|]; cbn [bind]; [apply IH|reflexivity]. }
  assert (S : forall lg m gs sb st lv l ct, b_beam_search pb lg m gs sb st keep lv l ct = l_beam_search pb lg m gs sb st lv l ct).
  { intros. unfold b_beam_search, l_beam_search. rewrite V. reflexivity. }
  revert lp counts ss_bot ss_top. induction groups as [|[[lv size] assumed] rest IH]; intros; [reflexivity|].
  cbn [b_groups l_groups]. destruct rest as [|g2 rest]; [apply S|]. rewrite S.
  destruct (l_beam_search _ _ _ _ _ _ _ _ _) as [[lf nd]|]; cbn [bind snd]; [apply IH|reflexivity].
Qed.
Print Assumptions C96_same_search.

(** an example: 8 plies in two groups, at least 40% of the plies at 45 degrees to be broken: the
    three orders of the draw; a repair that turns the middle plies to 45 delivers a laminate that
    keeps the rule *)
Definition ask_ex : lcargs :=
  {| y_sym := VBool true; y_bal := VBool false; y_ipo := VBool false; y_oopo := VBool false; y_dam_tol := VBool false; y_rule_10 := VBool true;
     y_0 := VInt 10; y_45 := VInt 40; y_90 := VInt 10; y_135 := VInt 0; y_45_135 := VInt 8;
     y_diso := VBool false; y_contig := VBool false; y_n_contig := 3%nat; y_delta := 45; y_dam_rule := 0%nat; y_angles := [0; 45; 90; -45] |}.
Definition run_ex (repair : list Z -> result (list Z * bool)) (drawn : Z) : option (list Z) :=
  match mk_layla_cons ask_ex with
  | Ok ask => match b_step (pb_ex repair 9 8) (Some ask) drawn [[0; 1]; [2; 3]]%nat [2; 2] [lampam_zero; lampam_zero] with
              | Ok (_, best) => Some (ln_final best) | Err _ => None end
  | Err _ => None
  end.
Definition to_45 (l : list Z) : list Z := [45; 45; 45; 45] ++ skipn 4 l.
Example C96_example :
  run_ex (fun l => Ok (l, true)) 2 = Some [-45; 90; 90; -45; -45; 90; 90; -45] /\
  run_ex (fun l => Ok (l, true)) 3 = None /\
  run_ex (fun l => Ok (to_45 l, true)) 2 = Some [45; 45; 45; 45; -45; 90; 90; -45].
Proof. repeat split; vm_compute; reflexivity. Qed.

(** the ply counts are not looked at after the repair: with one that changes them the delivered
    laminate can satisfy the minimum that was to be broken *)
Theorem C96_delivered_refuted :
  ~ (forall pb ask drawn levels sizes assumed leaves best,
       rule_10_percent ask = true -> 0 <= drawn <= 4 -> (forall s, In s sizes -> 1 <= s) ->
       b_step pb (Some ask) drawn levels sizes assumed = Ok (leaves, best) -> ln_ok best = true -> too_few ask drawn 0 (ln_final best)).
Proof.
  intros H.
  set (ask := match mk_layla_cons ask_ex with Ok c => c | Err _ => cons_ex end).
  assert (R : rule_10_percent ask = true) by (vm_compute; reflexivity).
  assert (F : match b_step (pb_ex (fun l => Ok (to_45 l, true)) 9 8) (Some ask) 2 [[0; 1]; [2; 3]]%nat [2; 2] [lampam_zero; lampam_zero] with
              | Ok (_, b) => Some (ln_final b, ln_ok b) | Err _ => None end = Some ([45; 45; 45; 45; -45; 90; 90; -45], true)) by (vm_compute; reflexivity).
  destruct (b_step _ (Some ask) 2 _ _ _) as [[leaves best]|] eqn:B; [|discriminate F]. injection F as F O.
  specialize (H _ ask 2 [[0; 1]; [2; 3]]%nat [2; 2] [lampam_zero; lampam_zero] leaves best R ltac:(lia) ltac:(intros s [<-|[<-|[]]]; lia) B O).
  rewrite F in H. unfold too_few in H. cbn [drawn_minimum] in H.
  assert (P : Qle_bool (percent_45 ask * inject_Z 8) 4 = true) by (vm_compute; reflexivity). apply Qle_bool_iff in P.
  clearbody ask. change (inject_Z (plies_with [45] [45; 45; 45; 45; -45; 90; 90; -45] + 0)) with 4%Q in H.
  change (Z.of_nat (length [45; 45; 45; 45; -45; 90; 90; -45])) with 8 in H. lra.
Qed.
Print Assumptions C96_delivered_refuted.
