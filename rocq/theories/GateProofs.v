(* GateProofs.v - balance penalty, 10% rule on stacks, final gate *)
From Verif Require Import Base Uniq Constraints Guidelines SpecGuidelines
  GuidelinesProofs ConstraintsProofs.
From Coq Require Import Lqa.

(** ply counts of a stack in the order of the allowed angles *)
Definition ply_counts (c : cons) (ss : list Z) : list Q :=
  map (fun a => inject_Z (count a ss)) (set_of_angles c).

Lemma ply_counts_nth c ss a i :
  nth_error (set_of_angles c) i = Some a ->
  nth_error (ply_counts c ss) i = Some (inject_Z (count a ss)).
Proof. unfold ply_counts; intros H; rewrite nth_error_map, H; reflexivity. Qed.

Lemma sumQ_map_inject (f : Z -> Z) l :
  (sumQ (map (fun a => inject_Z (f a)) l) == inject_Z (sumZ (map f l)))%Q.
Proof.
  induction l as [|a t IH]; cbn [map sumQ sumZ fold_right]; [reflexivity|].
  fold (sumQ (map (fun a => inject_Z (f a)) t)); fold (sumZ (map f t)).
  rewrite IH, inject_Z_plus; reflexivity.
Qed.

Lemma sum_counts set ss :
  NoDup set -> (forall a, In a ss -> In a set) ->
  sumZ (map (fun a => count a ss) set) = zlen ss.
Proof.
  intros Hnd; induction ss as [|x t IH]; intros H.
  - clear; unfold zlen; cbn [length]; induction set as [|b s IH]; [reflexivity|].
    cbn [map]; rewrite sumZ_cons, IH; reflexivity.
  - assert (E : sumZ (map (fun a => count a (x :: t)) set)
              = sumZ (map (fun a => if Z.eq_dec x a then 1 else 0) set)
                + sumZ (map (fun a => count a t) set)).
    { clear; induction set as [|b s IH]; auto; cbn [map]; rewrite !sumZ_cons, count_cons, IH; lia. }
    rewrite E, IH by (intros a Ha; apply H; right; exact Ha).
    assert (sumZ (map (fun a => if Z.eq_dec x a then 1 else 0) set) = 1) as ->.
    { assert (Hx : In x set) by (apply H; left; reflexivity).
      clear -Hnd Hx; induction set as [|b s IH]; [destruct Hx|].
      inversion Hnd; subst; cbn [map]; rewrite sumZ_cons.
      destruct (Z.eq_dec x b) as [->|Hne].
      - assert (sumZ (map (fun a => if Z.eq_dec b a then 1 else 0) s) = 0) as ->; [|lia].
        clear -H1; induction s as [|d s IH]; auto; cbn [map]; rewrite sumZ_cons.
        destruct (Z.eq_dec b d); [subst; exfalso; apply H1; left; auto|].
        rewrite IH; [lia|]; intros X; apply H1; right; exact X.
      - destruct Hx as [|Hx]; [congruence|]; rewrite IH; auto. }
    unfold zlen; cbn [length]; lia.
Qed.

Lemma inject_Z_eq0 z : (inject_Z z == 0)%Q <-> z = 0.
Proof. unfold Qeq, inject_Z; cbn; lia. Qed.

Lemma Qabs_inject z : (Qabs (inject_Z z) == inject_Z (Z.abs z))%Q.
Proof. reflexivity. Qed.

Lemma bal_sum_ok c ss ab :
  (forall e i j, In (e, i, j) ab ->
     nth_error (set_of_angles c) i = Some e /\ nth_error (set_of_angles c) j = Some (- e)) ->
  exists s, bal_sum (ply_counts c ss) ab = Ok s /\
   (s == inject_Z (sumZ (map (fun r => Z.abs (count (fst (fst r)) ss
                                              - count (- fst (fst r)) ss)) ab)))%Q.
Proof.
  induction ab as [|[[e i] j] t IH]; intros H; cbn [bal_sum].
  - exists 0%Q; split; [reflexivity|]; reflexivity.
  - destruct (H e i j (or_introl eq_refl)) as [Hi Hj].
    rewrite (ply_counts_nth _ _ _ _ Hi), (ply_counts_nth _ _ _ _ Hj).
    destruct IH as [s [-> Hs]]; [intros e' i' j' Hin; apply H; right; exact Hin|].
    cbn [bind]; eexists; split; [reflexivity|].
    cbn [map]; rewrite sumZ_cons, inject_Z_plus, Hs; cbn [fst].
    rewrite <- Qabs_inject; unfold Zminus; rewrite inject_Z_plus, inject_Z_opp.
    reflexivity.
Qed.

Lemma calc_penalty_bal_spec c ss areas :
  consistent c -> (forall a, In a ss -> In a (set_of_angles c)) -> (0 < areas)%Q ->
  exists p, calc_penalty_bal (ply_counts c ss) c areas = Ok p /\
    (0 <= p)%Q /\ ((p == 0)%Q <-> balanced ss).
Proof.
  intros K Hin Har; unfold calc_penalty_bal.
  pose proof (k_bal c K) as [Hm Hb].
  pose proof (k_set c K) as (Hnd & Hang & Hopp & _).
  assert (Hsum : (sumQ (ply_counts c ss) == inject_Z (zlen ss))%Q).
  { unfold ply_counts; rewrite (sumQ_map_inject (fun a => count a ss)).
    rewrite sum_counts; auto; reflexivity. }
  destruct (Qeq_bool (sumQ (ply_counts c ss)) 0) eqn:E.
  - apply Qeq_bool_iff in E; rewrite Hsum in E; apply (proj1 (inject_Z_eq0 _)) in E.
    assert (ss = []) as -> by (destruct ss; [reflexivity|]; unfold zlen in E; cbn [length] in E; lia).
    exists 0%Q; split; auto; split; [lra|]; split; [|reflexivity]. intros _ a _ _; reflexivity.
  - destruct (bal_sum_ok c ss (angles_bal c) Hb) as [s [-> Hs]]; cbn [bind].
    eexists; split; [reflexivity|].
    set (S := sumZ (map (fun r => Z.abs (count (fst (fst r)) ss
                                   - count (- fst (fst r)) ss)) (angles_bal c))) in *.
    assert (HS0 : 0 <= S).
    { apply sumZ_nonneg; intros x Hx; apply in_map_iff in Hx; destruct Hx as [r [<- _]]; lia. }
    assert (Hz : 0 < zlen ss).
    { pose proof (zlen_nonneg ss); apply Qeq_bool_neq in E.
      destruct (Z.eq_dec (zlen ss) 0) as [e|]; [|lia].
      exfalso; apply E; rewrite Hsum, e; reflexivity. }
    assert (HSb : S = 0 <-> balanced ss).
    { split.
      - intros HS a Ha Ha'.
        assert (P : forall b, 0 < b < 90 -> count b ss = count (- b) ss).
        { intros b Hb'.
          destruct (in_dec Z.eq_dec b (set_of_angles c)) as [Hbi|Hbi].
          - assert (Hf : In b (filter (fun a => (0 <? a) && (a <? 90)) (set_of_angles c))).
            { apply filter_In; split; auto; apply andb_true_iff; split; apply Z.ltb_lt; lia. }
            rewrite <- Hm in Hf; apply in_map_iff in Hf; destruct Hf as [r [Hr Hr']].
            assert (Z.abs (count (fst (fst r)) ss - count (- fst (fst r)) ss) = 0); [|subst b; lia].
            eapply sumZ_zero; [|exact HS|apply in_map_iff; exists r; auto].
            intros x Hx; apply in_map_iff in Hx; destruct Hx as [r' [<- _]]; lia.
          - assert (N1 : count b ss = 0) by (apply count_zero; intros X; apply Hbi, Hin, X).
            assert (N2 : count (- b) ss = 0).
            { apply count_zero; intros X; apply Hin in X; apply Hopp in X; [|lia].
              rewrite Z.opp_involutive in X; contradiction. }
            lia. }
        assert (Q' : forall b, ~ angle_ok b -> count b ss = 0).
        { intros b Hb'; apply count_zero; intros X; apply Hin in X.
          rewrite Forall_forall in Hang; apply Hb', Hang, X. }
        unfold count in P, Q'. unfold angle_ok in Q'.
        destruct (Z.lt_ge_cases (Z.abs a) 90).
        + destruct (Z.lt_ge_cases 0 a).
          * specialize (P a ltac:(lia)); lia.
          * specialize (P (- a) ltac:(lia)); rewrite Z.opp_involutive in P; lia.
        + pose proof (Q' a ltac:(lia)); pose proof (Q' (- a) ltac:(lia)); lia.
      - intros HB.
        assert (HZ : forall r, In r (angles_bal c) ->
                  Z.abs (count (fst (fst r)) ss - count (- fst (fst r)) ss) = 0).
        { intros [[e i] j] Hr; cbn [fst].
          assert (Hf : In e (map (fun r => fst (fst r)) (angles_bal c)))
            by (apply in_map_iff; exists (e, i, j); auto).
          rewrite Hm in Hf; apply filter_In in Hf; destruct Hf as [_ Hf].
          apply andb_true_iff in Hf; destruct Hf as [F1 F2]; apply Z.ltb_lt in F1, F2.
          unfold count; rewrite (HB e); lia. }
        unfold S; clear -HZ; induction (angles_bal c) as [|r t IH]; auto.
        cbn [map]; rewrite sumZ_cons, HZ by (left; auto); rewrite IH; auto.
        intros r' Hr'; apply HZ; right; auto. }
    assert (Hq : (areas * s / sumQ (ply_counts c ss) ==
                  areas * inject_Z S / inject_Z (zlen ss))%Q) by (rewrite Hs, Hsum; reflexivity).
    assert (Hzq : (0 < inject_Z (zlen ss))%Q)
      by (change 0%Q with (inject_Z 0); rewrite <- Zlt_Qlt; exact Hz).
    rewrite Hq; split.
    + apply Qle_shift_div_l; [exact Hzq|]. rewrite Qmult_0_l.
      apply Qmult_le_0_compat; [lra|]. change 0%Q with (inject_Z 0); rewrite <- Zle_Qle; exact HS0.
    + rewrite <- HSb; split.
      * intros X.
        assert (Y : (areas * inject_Z S == 0)%Q).
        { setoid_replace (areas * inject_Z S)%Q
            with (areas * inject_Z S / inject_Z (zlen ss) * inject_Z (zlen ss))%Q;
            [rewrite X; ring|]. field; intros W; apply (proj1 (inject_Z_eq0 _)) in W; lia. }
        apply Qmult_integral in Y; destruct Y as [Y|Y]; [lra|].
        apply (proj1 (inject_Z_eq0 _)) in Y; exact Y.
      * intros ->; change (inject_Z 0) with 0%Q.
        setoid_replace (areas * 0 / inject_Z (zlen ss))%Q with 0%Q; [reflexivity|].
        field; intros W; apply (proj1 (inject_Z_eq0 _)) in W; lia.
Qed.

(* ------------------------------------------------------------------ *)
(** * Plies covered by the disorientation / contiguity penalties *)

(** m: the plies of ss the penalties look at - without the two outer plies under
    damage tolerance rule 2 or 3, all of them otherwise (specification) *)
Definition covered_plies (c : cons) (ss m : list Z) : Prop :=
  (dam_tol c = true /\ (dam_tol_rule c = 2%nat \/ dam_tol_rule c = 3%nat) /\ inner_of ss m) \/
  (~ (dam_tol c = true /\ (dam_tol_rule c = 2%nat \/ dam_tol_rule c = 3%nat)) /\ m = ss).

Lemma covered_trim c ss m : covered_plies c ss m <-> m = dt_trim c ss.
Proof.
  unfold covered_plies; rewrite dt_trim_cases.
  destruct (dam_tol c && (Nat.eqb (dam_tol_rule c) 2 || Nat.eqb (dam_tol_rule c) 3))%bool eqn:E.
  - rewrite andb_true_iff, orb_true_iff, !Nat.eqb_eq in E; split.
    + intros [[_ [_ H]]|[H _]]; [apply inner_unique; exact H | tauto].
    + intros ->; left; split; [tauto|]; split; [tauto|]; apply inner_trim.
  - apply not_true_iff_false in E; rewrite andb_true_iff, orb_true_iff, !Nat.eqb_eq in E.
    split; [intros [H|[_ H]]; [tauto | exact H] | intros ->; right; tauto].
Qed.

Lemma diso_penalty_covered ss c m :
  Forall angle_ok ss -> covered_plies c ss m -> m <> [] ->
  exists n, calc_n_penalty_diso_ss ss c = Ok n /\ counts n (diso_bad_at (delta_angle c) m).
Proof.
  intros H Hc Hm; apply covered_trim in Hc; subst m.
  apply calc_n_penalty_diso_ss_spec; auto.
Qed.

Lemma diso_penalty_mp_covered sss c :
  Forall (Forall angle_ok) sss -> (forall ss, In ss sss -> ~ covered_plies c ss []) ->
  exists r, calc_number_violations_diso_mp sss c = Ok r /\
    Forall2 (fun ss n => forall m, covered_plies c ss m ->
                          counts n (diso_bad_at (delta_angle c) m)) sss r.
Proof.
  intros H Hne; unfold calc_number_violations_diso_mp, calc_penalty_diso_mp_0.
  induction H as [|ss t Hs Ht IH]; cbn [map mapM].
  - exists []; split; auto.
  - destruct IH as [r [Er Hr]]; [intros x Hx; apply Hne; right; exact Hx|].
    assert (Hn : dt_trim c ss <> []).
    { intros E; apply (Hne ss (or_introl eq_refl)), covered_trim; auto. }
    destruct (calc_n_penalty_diso_ss_spec ss c Hs Hn) as [n [En Hc]].
    unfold calc_n_penalty_diso_ss, calc_penalty_diso_mp_0 in En; cbn [mapM] in En.
    destruct (viola_diso_1 (dt_trim c ss) (delta_angle c)) as [v|]; [|discriminate].
    cbn [bind map] in En |- *; rewrite sumZ_cons in En; cbn [sumZ fold_right] in En.
    rewrite Z.add_0_r in En; injection En as <-.
    match type of Er with (do v <- ?X; _) = _ => destruct X as [w|]; [|discriminate] end.
    cbn [bind map] in Er |- *; injection Er as <-.
    eexists; split; [reflexivity|]; constructor; auto.
    intros m Hm; apply covered_trim in Hm; subst m; exact Hc.
Qed.

Lemma contig_penalty_covered ss c m :
  (2 <= n_contig c <= 6)%nat -> covered_plies c ss m ->
  exists n, calc_penalty_contig_ss ss c = Ok n /\ counts n (fun i => block_at (S (n_contig c)) i m).
Proof.
  intros H Hc; apply covered_trim in Hc; subst m; apply calc_penalty_contig_ss_spec; auto.
Qed.

Lemma contig_penalty_mp_covered sss c :
  (2 <= n_contig c <= 6)%nat ->
  exists r, calc_penalty_contig_mp sss c = Ok r /\
    Forall2 (fun ss n => forall m, covered_plies c ss m ->
                          counts n (fun i => block_at (S (n_contig c)) i m)) sss r.
Proof.
  intros H; destruct (calc_penalty_contig_mp_spec sss c H) as [r [Er Hr]].
  exists r; split; auto; clear Er; induction Hr; constructor; auto.
  intros m Hm; apply covered_trim in Hm; subst m; assumption.
Qed.

Lemma covered_exists c ss : exists m, covered_plies c ss m.
Proof. exists (dt_trim c ss); apply covered_trim; reflexivity. Qed.

(* ------------------------------------------------------------------ *)
(** * 10% rule, specification on stacks *)
Section Ten.
Variables (tol : Q) (eq45 eq090 : bool) (c : cons) (ss : list Z).
Definition ten_spec : Prop :=
  ((eq090 = false -> percent_0 c <= share_of 0 ss + tol /\
                      percent_90 c <= share_of 90 ss + tol) /\
   (eq090 = true -> percent_0 c + percent_90 c <= share_of 0 ss + share_of 90 ss + tol) /\
   (eq45 = false -> percent_45 c <= share_of 45 ss + tol /\
                    percent_135 c <= share_of (-45) ss + tol) /\
   (eq45 = true -> percent_45 c + percent_135 c
                   <= share_of 45 ss + share_of (-45) ss + tol) /\
   percent_45_135 c <= share_of 45 ss + share_of (-45) ss + tol)%Q.
End Ten.

Lemma is_ten_percent_stack_spec c ss eq45 eq090 :
  ss <> [] ->
  exists b, is_ten_percent_stack c ss eq45 eq090 = Ok b /\
            (b = true <-> ten_spec eps15 eq45 eq090 c ss).
Proof.
  intros H; unfold is_ten_percent_stack.
  destruct (ten_compare_spec c (count 0 ss) (count 45 ss) (count 90 ss) (count (-45) ss)
              (length ss) eq45 eq090) as [b [-> Hb]].
  { destruct ss; [congruence | discriminate]. }
  exists b; split; auto.
Qed.

Lemma calc_penalty_10_ss_spec c ss :
  consistent c -> ss <> [] ->
  exists p, calc_penalty_10_ss ss c = Ok p /\ (0 <= p)%Q /\
    ((p == 0)%Q <-> ten_spec 0 false false c ss).
Proof.
  intros K H; unfold calc_penalty_10_ss.
  pose proof (k_tot c K) as KT; pose proof (k_pct c K) as KP.
  destruct (Qltb 0 (percent_tot c)) eqn:E.
  - assert (Nat.eqb (length ss) 0 = false) as -> by (destruct ss; [congruence|reflexivity]).
    eexists; split; [reflexivity|]; split; [apply pen10_nonneg|].
    rewrite pen10_zero, !share_share; unfold ten_spec; split.
    + intros (A1 & A2 & A3 & A4 & A5); repeat split; intros; try discriminate; lra.
    + intros (A1 & _ & A3 & _ & A5); specialize (A1 eq_refl); specialize (A3 eq_refl);
        repeat split; lra.
  - exists 0%Q; split; auto; split; [lra|]; split; [intros _|reflexivity].
    apply Qltb_ge in E.
    assert (N : ~ (0 < percent_0 c \/ 0 < percent_45 c \/ 0 < percent_90 c \/
                   0 < percent_135 c \/ 0 < percent_45_135 c)%Q)
      by (intros X; apply KT in X; lra).
    assert (Sh : forall a, (0 <= share_of a ss)%Q).
    { intros a; unfold share_of; apply Qle_shift_div_l.
      - change 0%Q with (inject_Z 0); rewrite <- Zlt_Qlt; destruct ss; [congruence|cbn; lia].
      - rewrite Qmult_0_l; change 0%Q with (inject_Z 0); rewrite <- Zle_Qle; lia. }
    pose proof (Sh 0); pose proof (Sh 45); pose proof (Sh 90); pose proof (Sh (-45)).
    destruct (Qlt_le_dec 0 (percent_0 c)); [exfalso; apply N; tauto|].
    destruct (Qlt_le_dec 0 (percent_45 c)); [exfalso; apply N; tauto|].
    destruct (Qlt_le_dec 0 (percent_90 c)); [exfalso; apply N; tauto|].
    destruct (Qlt_le_dec 0 (percent_135 c)); [exfalso; apply N; tauto|].
    destruct (Qlt_le_dec 0 (percent_45_135 c)); [exfalso; apply N; tauto|].
    unfold ten_spec; repeat split; intros; try discriminate; lra.
Qed.

Lemma getQ_ply_counts c ss a :
  NoDup (set_of_angles c) -> In a (set_of_angles c) ->
  getQ (ply_counts c ss) c a = Ok (inject_Z (count a ss)).
Proof.
  intros Hn Hi; unfold getQ; destruct (index_of_in _ _ Hi) as [i Ei]; rewrite Ei.
  apply index_of_some in Ei; destruct Ei as [_ [Ei _]].
  rewrite (ply_counts_nth _ _ _ _ Ei); reflexivity.
Qed.

Lemma sum_ply_counts c ss :
  consistent c -> (forall a, In a ss -> In a (set_of_angles c)) ->
  (sumQ (ply_counts c ss) == inject_Z (zlen ss))%Q.
Proof.
  intros K Hin; unfold ply_counts; rewrite (sumQ_map_inject (fun a => count a ss)).
  pose proof (k_set c K) as (Hnd & _); rewrite sum_counts; auto; reflexivity.
Qed.

Lemma ptot_pos_r10 c : consistent c -> Qltb 0 (percent_tot c) = true -> rule_10_percent c = true.
Proof.
  intros K E; apply Qltb_lt in E; destruct (rule_10_percent c) eqn:R; auto.
  pose proof (k_pct_off c K (or_introl R)); lra.
Qed.

(** the ply-count based penalty is the area times the stack based one *)
Lemma calc_penalty_10_pc_spec c ss areas :
  consistent c -> (forall a, In a ss -> In a (set_of_angles c)) -> ss <> [] ->
  exists p q, calc_penalty_10_pc (ply_counts c ss) c areas = Ok p /\
    calc_penalty_10_ss ss c = Ok q /\ (p == areas * q)%Q.
Proof.
  intros K Hin Hne; unfold calc_penalty_10_pc, calc_penalty_10_ss.
  destruct (Qltb 0 (percent_tot c)) eqn:E.
  - pose proof (ptot_pos_r10 c K E) as R.
    pose proof (k_set c K) as (Hnd & _ & _ & _ & H10); specialize (H10 R).
    pose proof (sum_ply_counts c ss K Hin) as Hs.
    assert (Hz : 0 < zlen ss) by (destruct ss; [congruence|unfold zlen; cbn [length]; lia]).
    destruct (Qeq_bool (sumQ (ply_counts c ss)) 0) eqn:E0.
    { apply Qeq_bool_iff in E0; rewrite Hs in E0; apply (proj1 (inject_Z_eq0 _)) in E0; lia. }
    assert (Nat.eqb (length ss) 0 = false) as -> by (destruct ss; [congruence|reflexivity]).
    rewrite !getQ_ply_counts by tauto; cbn [bind].
    do 2 eexists; split; [reflexivity|]; split; [reflexivity|].
    assert (Hd : forall a, (inject_Z (count a ss) / sumQ (ply_counts c ss)
                            == share (count a ss) (length ss))%Q)
      by (intros a; rewrite Hs; reflexivity).
    assert (Hpen : forall a b x d a' b' x' d', (a == a' -> b == b' -> x == x' -> d == d' ->
              pen10 c a b x d == pen10 c a' b' x' d')%Q).
    { intros a b x d a' b' x' d' Ea Eb Ex Ed; unfold pen10.
      assert (Hp : forall u v, (u == v -> pos u == pos v)%Q).
      { intros u v Euv; unfold pos, Qmaxb.
        destruct (Qltb 0 u) eqn:U; destruct (Qltb 0 v) eqn:V; try exact Euv; try reflexivity;
          [apply Qltb_lt in U; apply Qltb_ge in V | apply Qltb_ge in U; apply Qltb_lt in V]; lra. }
      rewrite (Hp (percent_0 c - a) (percent_0 c - a'))%Q by (rewrite Ea; reflexivity).
      rewrite (Hp (percent_45 c - b) (percent_45 c - b'))%Q by (rewrite Eb; reflexivity).
      rewrite (Hp (percent_90 c - x) (percent_90 c - x'))%Q by (rewrite Ex; reflexivity).
      rewrite (Hp (percent_135 c - d) (percent_135 c - d'))%Q by (rewrite Ed; reflexivity).
      rewrite (Hp (percent_45_135 c - b - d) (percent_45_135 c - b' - d'))%Q
        by (rewrite Eb, Ed; reflexivity).
      reflexivity. }
    rewrite (Hpen _ _ _ _ _ _ _ _ (Hd 0) (Hd 45) (Hd 90) (Hd (-45))); reflexivity.
  - exists 0%Q, 0%Q; repeat split; auto; ring.
Qed.

(** partially known stacks: the completed laminate has the queue in the unknown
    places.  For symmetric laminates [half] is the known part of the lower half *)
Lemma ten_queue_sym_even c half queue eq45 eq090 hole :
  sym c = true -> ~ In hole [0; 45; 90; -45] -> half <> [] \/ queue <> [] ->
  let partial := half ++ repeat hole (length queue) ++ repeat hole (length queue) ++ rev half in
  let full := half ++ queue ++ rev queue ++ rev half in
  is_ten_percent_queue c partial queue eq45 eq090 = is_ten_percent_stack c full eq45 eq090.
Proof.
  intros Hs Hh Hne partial full; unfold is_ten_percent_queue, is_ten_percent_stack; rewrite Hs.
  assert (Hl : length partial = (2 * (length half + length queue))%nat).
  { unfold partial; rewrite !app_length, !repeat_length, rev_length; lia. }
  assert (Hl' : length full = (2 * (length half + length queue))%nat).
  { unfold full; rewrite !app_length, !rev_length; lia. }
  assert (Hm : (length partial mod 2 = 0)%nat).
  { rewrite Hl, Nat.mul_comm; apply Nat.mod_mul; lia. }
  assert (Hd : (length partial / 2 = length half + length queue)%nat).
  { rewrite Hl, Nat.mul_comm; apply Nat.div_mul; lia. }
  rewrite Hm, Hd; cbn [Nat.eqb].
  assert (Hf : firstn (length half + length queue) partial = half ++ repeat hole (length queue)).
  { unfold partial; rewrite app_assoc, firstn_app, firstn_all2
      by (rewrite app_length, repeat_length; lia).
    rewrite app_length, repeat_length, Nat.sub_diag; cbn; rewrite app_nil_r; reflexivity. }
  rewrite Hf, Hl, Hl'.
  assert (Hc : forall a, In a [0; 45; 90; -45] ->
     2 * (count a (half ++ repeat hole (length queue)) + count a queue) = count a full).
  { intros a Ha; unfold full; rewrite !count_app, !count_rev, count_repeat.
    destruct (Z.eq_dec hole a); [subst; contradiction | lia]. }
  rewrite !Hc by (cbn; tauto); reflexivity.
Qed.

Lemma ten_queue_asym c partial queue full eq45 eq090 hole :
  sym c = false -> ~ In hole [0; 45; 90; -45] ->
  length full = length partial ->
  (forall a, a <> hole -> count a full = count a partial + count a queue) ->
  is_ten_percent_queue c partial queue eq45 eq090 = is_ten_percent_stack c full eq45 eq090.
Proof.
  intros Hs Hh Hl Hc; unfold is_ten_percent_queue, is_ten_percent_stack; rewrite Hs, Hl.
  rewrite !Hc; [reflexivity| | | |]; intros <-; apply Hh; cbn; tauto.
Qed.

(* ------------------------------------------------------------------ *)
(** * The gate *)
Lemma bind_unit (r : result unit) (k : result unit) :
  (do _ <- r; k) = Ok tt <-> r = Ok tt /\ k = Ok tt.
Proof.
  destruct r as [[]|e]; cbn [bind]; split; intros H; try tauto; try discriminate.
Qed.

Lemma check_ok r e : check r e = Ok tt <-> r = Ok true.
Proof.
  unfold check; destruct r as [[|]|]; cbn [bind]; split; intros; congruence.
Qed.

Lemma if_ok (b : bool) (r : result unit) :
  (if b then r else Ok tt) = Ok tt <-> (b = true -> r = Ok tt).
Proof. destruct b; split; auto; intros; try discriminate. Qed.

(** pairs the disorientation guideline is applied to *)
Definition diso_covered (c : cons) (ss : list Z) : Prop :=
  if dam_tol c then
    if Nat.eqb (dam_tol_rule c) 1 then True
    else forall m, inner_of ss m -> diso_stack (delta_angle c) m
  else diso_stack (delta_angle c) ss.

(** damage tolerance of a stack under the active rule *)
Definition damtol_spec (c : cons) (ss : list Z) : Prop :=
  (dam_tol_rule c = 1%nat -> damtol1 ss) /\ (dam_tol_rule c = 2%nat -> damtol2 ss) /\
  (dam_tol_rule c = 3%nat -> damtol3 ss).

Definition ipo_small (l : Q * Q) : Prop :=
  (Qabs (fst l) <= 1 # 10000000000 /\ Qabs (snd l) <= 1 # 10000000000)%Q.

Lemma gate_ipo_spec l : gate_ipo l = false <-> ipo_small l.
Proof. unfold gate_ipo, ipo_small; rewrite orb_false_iff, !Qltb_ge; tauto. Qed.

Lemma check_lay_up_rules_spec orc ss c no_ipo no_bal eq45 eq090 n_plies :
  consistent c -> (2 <= length ss)%nat -> Forall angle_ok ss ->
  (contig c = true -> (2 <= n_contig c <= 6)%nat) ->
  (check_lay_up_rules orc ss c no_ipo no_bal eq45 eq090 n_plies = Ok tt <->
   ((forall n, n_plies = Some n -> length ss = n) /\
    (dam_tol c = true -> damtol_spec c ss) /\
    (bal c = true -> no_bal = false -> balanced ss) /\
    (ipo c = true -> no_ipo = false -> ipo_small (orc ss)) /\
    (diso c = true -> diso_covered c ss) /\
    (contig c = true -> contig_stack (n_contig c) ss) /\
    (rule_10_percent c = true -> ten_spec eps15 eq45 eq090 c ss))).
Proof.
  intros K Hlen Hang Hcn; unfold check_lay_up_rules.
  rewrite !bind_unit, guard_ok, !if_ok, !check_ok.
  assert (Hne : ss <> []) by (intros ->; cbn in Hlen; lia).
  assert (E1 : (match n_plies with Some n => negb (Nat.eqb (length ss) n) | None => false end)
               = false <-> (forall n, n_plies = Some n -> length ss = n)).
  { destruct n_plies as [n|]; [|split; auto; intros; discriminate].
    rewrite negb_false_iff, Nat.eqb_eq; split; [intros H m Em; congruence | auto]. }
  assert (E2 : (dam_tol c = true -> is_dam_tol ss c = Ok true) <->
               (dam_tol c = true -> damtol_spec c ss)).
  { destruct (dam_tol c) eqn:D; [|split; intros; discriminate].
    destruct (k_damtol_on c K D) as [_ [[R _]|[[R|R] _]]]; unfold damtol_spec; rewrite R.
    - destruct (is_dam_tol_1 ss c D R Hne) as [b [-> Hb]]; split; intros H _;
        specialize (H eq_refl).
      + refine (conj _ (conj _ _)); try discriminate; intros _; apply Hb; congruence.
      + f_equal; apply Hb; apply H; reflexivity.
    - destruct (is_dam_tol_2 ss c D R Hlen) as [b [-> Hb]]; split; intros H _;
        specialize (H eq_refl).
      + refine (conj _ (conj _ _)); try discriminate; intros _; apply Hb; congruence.
      + f_equal; apply Hb; apply H; reflexivity.
    - destruct (is_dam_tol_3 ss c D R Hlen) as [b [-> Hb]]; split; intros H _;
        specialize (H eq_refl).
      + refine (conj _ (conj _ _)); try discriminate; intros _; apply Hb; congruence.
      + f_equal; apply Hb; apply H; reflexivity. }
  assert (E3 : ((negb no_bal && bal c)%bool = true -> Ok (is_balanced ss) = Ok true) <->
               (bal c = true -> no_bal = false -> balanced ss)).
  { rewrite <- is_balanced_spec; destruct no_bal, (bal c); cbn; split; intros H; intros;
      try discriminate; auto.
    - specialize (H eq_refl); congruence.
    - f_equal; auto. }
  assert (E4 : ((negb no_ipo && ipo c)%bool = true -> Ok (negb (gate_ipo (orc ss))) = Ok true) <->
               (ipo c = true -> no_ipo = false -> ipo_small (orc ss))).
  { rewrite <- gate_ipo_spec; destruct no_ipo, (ipo c); cbn; split; intros H; intros;
      try discriminate; auto.
    - specialize (H eq_refl); injection H as H; apply negb_true_iff; exact H.
    - rewrite H by auto; reflexivity. }
  assert (E5 : (diso c = true -> is_diso_ss ss (delta_angle c) (dam_tol c)
                                   (Some (dam_tol_rule c)) None = Ok true) <->
               (diso c = true -> diso_covered c ss)).
  { unfold diso_covered; destruct (dam_tol c) eqn:D.
    - destruct (k_damtol_on c K D) as [_ [[R _]|[R _]]].
      + rewrite R; cbn [Nat.eqb]; rewrite is_diso_ss_rule1; split; auto.
      + destruct (is_diso_ss_inner ss (delta_angle c) _ Hang R) as [b [-> Hb]].
        assert (Nat.eqb (dam_tol_rule c) 1 = false) as -> by (apply Nat.eqb_neq; lia).
        split; intros H Hd; specialize (H Hd); [apply Hb; congruence | f_equal; apply Hb; exact H].
    - cbn [is_diso_ss]; split; intros H Hd; specialize (H Hd).
      + injection H as H; apply diso_all_spec in H; auto.
      + f_equal; apply diso_all_spec; auto. }
  assert (E6 : (contig c = true -> is_contig ss (n_contig c) = Ok true) <->
               (contig c = true -> contig_stack (n_contig c) ss)).
  { split; intros H Hc; specialize (H Hc);
      destruct (is_contig_spec (n_contig c) ss (Hcn Hc)) as [b [Eb Hb]].
    - apply Hb; congruence.
    - rewrite Eb; f_equal; apply Hb; exact H. }
  assert (E7 : (rule_10_percent c = true -> is_ten_percent_stack c ss eq45 eq090 = Ok true) <->
               (rule_10_percent c = true -> ten_spec eps15 eq45 eq090 c ss)).
  { destruct (is_ten_percent_stack_spec c ss eq45 eq090 Hne) as [b [-> Hb]].
    split; intros H Hc; specialize (H Hc); [apply Hb; congruence | f_equal; apply Hb; exact H]. }
  rewrite E1, E2, E3, E4, E5, E6, E7; tauto.
Qed.

(* ------------------------------------------------------------------ *)
(** * Requested minima *)
Definition requested (a : cargs) (tol : Q) (ss : list Z) : Prop :=
  (a_percent_0 a / 100 <= share_of 0 ss + tol /\ a_percent_90 a / 100 <= share_of 90 ss + tol /\
   a_percent_45 a / 100 <= share_of 45 ss + tol /\
   a_percent_135 a / 100 <= share_of (-45) ss + tol /\
   a_percent_45_135 a / 100 <= share_of 45 ss + share_of (-45) ss + tol)%Q.

Lemma balanced_share45 ss : balanced ss -> (share_of 45 ss == share_of (-45) ss)%Q.
Proof. intros H; unfold share_of; rewrite (H 45) by lia; reflexivity. Qed.

Lemma requested_if_balanced a c ss :
  mk_cons a = Ok c -> a_rule_10_percent a = true -> a_rule_10_Abdalla a = false ->
  a_calc_combine_45_135 a = true ->
  balanced ss -> ten_spec eps15 false false c ss -> requested a (4 * eps15) ss.
Proof.
  intros H R10 RA CC HB (T1 & _ & T3 & _ & T5).
  pose proof (mk_cons_consistent a c H) as K.
  pose proof (proj1 (mk_cons_valid a) (ex_intro _ c H)) as V.
  destruct V as (_ & _ & _ & V4 & V5 & V6 & V7 & V8 & _).
  unfold mk_cons in H.
  repeat (rewrite bind_guard in H; destruct H as [_ H]).
  apply bind_ok in H; destruct H as [sa [_ H]].
  rewrite bind_guard in H; destruct H as [_ H].
  injection H as <-; cbn in T1, T3, T5; rewrite R10, RA in T1, T3, T5; cbn [andb negb] in T1, T3, T5.
  specialize (T1 eq_refl); specialize (T3 eq_refl).
  pose proof (balanced_share45 ss HB) as HS.
  unfold combine in T3, T5; rewrite CC in T3, T5.
  unfold requested; rewrite !div100 in *; unfold pct_ok in *.
  assert (He : (0 < eps15)%Q) by reflexivity.
  match type of T5 with context [negb ?b] => destruct b eqn:E end; cbn [negb] in T3, T5;
    rewrite ?div100 in *.
  - apply orb_true_iff in E; rewrite !Qltb_lt in E; unfold Qdiv in E;
      change (/ 2)%Q with (1 # 2)%Q in E; repeat split; destruct E; lra.
  - apply orb_false_iff in E; rewrite !Qltb_ge in E; unfold Qdiv in E;
      change (/ 2)%Q with (1 # 2)%Q in E; destruct E; repeat split; lra.
Qed.
