(* Properties_repairss.v - C63: repair of a single laminate (RELAY/repair_ss.py) *)
From Coq Require Import Lqa.
From Verif Require Import Base Uniq Constraints Guidelines SpecGuidelines GuidelinesProofs ConstraintsProofs GateProofs Search Objectives
  Repair10 Repair10Proofs RepairDiso RepairDisoProofs Membrane Flexural Abdalla10 RepairMp RepairMpProofs RepairSs
  Properties_guidelines Properties_repair10 Properties_membrane Properties_flexural Properties_repairdiso.
Local Open Scope Z_scope.

(* ------------------------------------------------------------------ *)
Lemma split_perm {A} (f : A -> bool) l : Permutation l (filter (fun x => negb (f x)) l ++ filter f l).
Proof.
  induction l as [|x l IH]; [constructor|]. cbn [filter]. destruct (f x); cbn [negb app]; [|now constructor].
  etransitivity; [apply perm_skip, IH|]. apply Permutation_middle.
Qed.
Lemma map_nth_seq0 (l : list Z) h : (h <= length l)%nat -> map (fun i => nth i l 0) (seq 0 h) = firstn h l.
Proof.
  revert h; induction l as [|x l IH]; intros [|h] H; cbn [length] in H; try reflexivity; [lia|]. cbn [seq map firstn]. cbn [nth]. f_equal.
  rewrite <- seq_shift, map_map. cbn [nth]. apply IH. lia.
Qed.
Lemma unknown_count_spec l : Z.of_nat (unknown_count l) = count 666 l.
Proof.
  unfold unknown_count. induction l as [|x l IH]; [reflexivity|]. rewrite count_cons. cbn [filter].
  destruct (Z.eqb_spec x 666), (Z.eq_dec x 666); try congruence; cbn [length]; lia.
Qed.
Lemma fill_perm (s t q : list Z) h : (h <= length s)%nat -> length t = length s ->
  (forall i, (i < length s)%nat -> nth i s 0 <> 666 -> nth i t 0 = nth i s 0) ->
  Permutation q (map (fun i => nth i t 0) (filter (fun i => nth i s 0 =? 666) (seq 0 h))) ->
  Permutation (firstn h t) (known_plies (firstn h s) ++ q).
Proof.
  intros H L Kn Pq. rewrite <- (map_nth_seq0 t h) by lia. rewrite Pq.
  rewrite (Permutation_map _ (split_perm (fun i => nth i s 0 =? 666) (seq 0 h))). rewrite map_app. apply Permutation_app_tail.
  rewrite <- (map_nth_seq0 s h) by exact H. unfold known_plies.
  match goal with |- Permutation ?x ?y => replace y with x; [reflexivity|] end.
  assert (B : forall i, In i (seq 0 h) -> (i < length s)%nat) by (intros i Hi; apply in_seq in Hi; lia). revert B. generalize (seq 0 h) as k.
  induction k as [|j k IH]; intros B; [reflexivity|]. cbn [filter map]. destruct (Z.eqb_spec (nth j s 0) 666); cbn [negb map].
  - apply IH. intros i Hi; apply B; now right.
  - rewrite Kn; [|apply B; now left|assumption]. f_equal. apply IH. intros i Hi; apply B; now right.
Qed.

Lemma balanced_perm l m : Permutation l m -> balanced l -> balanced m.
Proof. intros P B a H1 H2. rewrite <- !(proj1 (Permutation_count_occ Z.eq_dec l m) P). apply B; assumption. Qed.
Lemma share_perm a l m : Permutation l m -> share_of a l = share_of a m.
Proof. intros P. unfold share_of. rewrite (proj1 (Permutation_count_occ Z.eq_dec l m) P), (Permutation_length P). reflexivity. Qed.
Lemma ten_perm tol eq45 eq090 c l m : Permutation l m -> ten_spec tol eq45 eq090 c l -> ten_spec tol eq45 eq090 c m.
Proof. intros P. unfold ten_spec. rewrite !(share_perm _ l m P). auto. Qed.

Lemma mirror_perm (s t : list Z) : length s = length t -> s = rev s -> t = rev t -> Permutation (first_half s) (first_half t) ->
  (Nat.odd (length t) = true -> nth (length t / 2) s 0 = nth (length t / 2) t 0) -> Permutation s t.
Proof.
  intros L Ps Pt P M. unfold first_half in P. rewrite L in P. set (h := (length t / 2)%nat) in *.
  pose proof (Nat.div_mod (length t) 2 ltac:(lia)) as D. fold h in D. pose proof (Nat.mod_upper_bound (length t) 2 ltac:(lia)) as B.
  assert (Sp : forall l : list Z, length l = length t -> l = rev l -> l = firstn h l ++ (if Nat.odd (length t) then [nth h l 0] else []) ++ rev (firstn h l)).
  { intros l Ll Pl. rewrite <- (firstn_skipn h l) at 1. f_equal.
    assert (E : rev (firstn h l) = skipn (length l - h) l). { rewrite Pl at 1. rewrite firstn_rev, rev_involutive. reflexivity. }
    rewrite E. destruct (Nat.odd (length t)) eqn:O.
    - assert (length t = 2 * h + 1)%nat. { apply Nat.odd_spec in O. destruct O as [k Hk]. lia. }
      replace (length l - h)%nat with (S h) by lia. cbn [app]. clear - Ll H. assert (X : (h < length l)%nat) by lia. clearbody h. clear - X. revert h X. induction l as [|x l IH]; intros [|h] X; cbn [length] in X; [lia|lia|reflexivity|]. cbn [skipn nth]. apply IH. lia.
    - assert (length t = 2 * h)%nat. { rewrite <- Nat.negb_even, negb_false_iff in O. apply Nat.even_spec in O. destruct O as [k Hk]. lia. }
      cbn [app]. f_equal. lia. }
  pose proof (Sp s L Ps) as Es. pose proof (Sp t eq_refl Pt) as Et.
  assert (Pr : Permutation (rev (firstn h s)) (rev (firstn h t))) by (etransitivity; [symmetry; apply Permutation_rev|]; etransitivity; [exact P|apply Permutation_rev]).
  assert (G : Permutation (firstn h s ++ (if Nat.odd (length t) then [nth h s 0] else []) ++ rev (firstn h s)) (firstn h t ++ (if Nat.odd (length t) then [nth h t 0] else []) ++ rev (firstn h t))).
  { apply Permutation_app; [exact P|]. apply Permutation_app; [|exact Pr]. destruct (Nat.odd (length t)); [rewrite M by reflexivity|]; reflexivity. }
  rewrite <- Es, <- Et in G. exact G.
Qed.

(* ------------------------------------------------------------------ *)
(** the first step (10% rule and balance) and what a completion of its result satisfies *)
Section First.
Variables (a : cargs) (c : cons) (ss s' q : list Z).
Hypothesis M : mk_cons a = Ok c.
Hypothesis Ab : (rule_10_percent c && rule_10_Abdalla c)%bool = false.
Hypothesis Ne : ss <> [].
Hypothesis Al : Forall angle_ok ss.
Hypothesis Pal : sym c = true -> ss = rev ss.
Hypothesis Rm : room c (length ss).
Hypothesis E : repair_10_bal c ss (calc_mini_10 c (length ss)) = (s', q).

Lemma first_queue_ok cos_sin distA fuel : Forall angle_ok q /\ Forall (fun x => x = 666 \/ angle_ok x) s' /\
  repair_10_bal_all c cos_sin distA fuel ss (calc_mini_10 c (length ss)) = Ok (s', q).
Proof.
  pose proof (mk_cons_consistent a c M) as K. destruct (k_set c K) as (_ & Fa & _ & _ & K10). rewrite Forall_forall in Fa.
  assert (R : repair_10_bal_all c cos_sin distA fuel ss (calc_mini_10 c (length ss)) = Ok (s', q)).
  { unfold repair_10_bal_all. rewrite Ab. cbn [negb]. unfold repair_10_bal in E. rewrite E. reflexivity. }
  assert (G : Forall (fun x => x = 666 \/ angle_ok x) (fst (s', q)) /\ Forall angle_ok (snd (s', q))).
  { eapply (repair_all_P c cos_sin distA angle_ok); [| | | |exact Al|exact R].
    - unfold angle_ok; lia.
    - intros x Hx. exact (Fa x Hx).
    - unfold angle_ok; intros; lia.
    - intros R10. unfold angle_ok; lia. }
  destruct G as [G1 G2]. auto.
Qed.

Lemma middle_known : sym c = true -> Nat.odd (length ss) = true -> angle_ok (nth (length ss / 2) s' 0).
Proof.
  intros Sy O. destruct (C34_repair a c ss s' q M Ab Ne Al Pal Rm E) as (L & P & X & _).
  assert (H : (length ss / 2 < length ss)%nat) by (apply Nat.div_lt; [destruct ss; [congruence|cbn [length]; lia]|lia]).
  revert E. unfold repair_10_bal, repair_10_bal_2. clear Ab. destruct (_ && _)%bool.
  - intros X'. injection X' as <- _. rewrite Forall_forall in Al. apply Al, nth_In, H.
  - destruct (queue_loop _ _ _ _) as [[[k q1] ms] ch]. intros X'. injection X' as <- _. rewrite set_middle_length. rewrite forget_middle; [|apply set_middle_length|exact Sy|exact O].
    unfold set_middle. destruct (_ && _)%bool; [rewrite nth_upd, Nat.eqb_refl, (proj2 (Nat.ltb_lt _ _) H); unfold angle_ok; cbn [andb]; lia|rewrite Forall_forall in Al; apply Al, nth_In, H].
Qed.

Definition slot_count : nat := if sym c then (length ss / 2)%nat else length ss.
(** the queue has the size of the unknown plies; the known plies are angles *)
Lemma first_size : length q = unknown_count (firstn slot_count s') /\ complete (known_plies (firstn slot_count s')).
Proof.
  destruct (C34_repair a c ss s' q M Ab Ne Al Pal Rm E) as (L & P & X & Q & _). split.
  - apply Nat2Z.inj. rewrite unknown_count_spec, Q. reflexivity.
  - apply Forall_forall. intros x Hx. apply filter_In in Hx. destruct Hx as [H1 H2]. apply negb_true_iff, Z.eqb_neq in H2.
    destruct (first_queue_ok (fun _ _ => 0%Q) (fun _ => 0%Q) 0) as (_ & F & _). rewrite Forall_forall in F.
    destruct (F x); [|contradiction|assumption]. rewrite <- (firstn_skipn slot_count s'). apply in_or_app. now left.
Qed.

(** a completion: the plies of the slots are the known plies and the queue *)
Lemma completed t : length t = length ss -> (sym c = true -> t = rev t) ->
  Permutation (firstn slot_count t) (known_plies (firstn slot_count s') ++ q) ->
  (sym c = true -> Nat.odd (length ss) = true -> nth (length ss / 2) t 0 = nth (length ss / 2) s' 0) ->
  (ipo c = true -> balanced t) /\ ten_spec 0 false false c t.
Proof.
  intros Lt Pt Pm Md. destruct (C34_repair a c ss s' q M Ab Ne Al Pal Rm E) as (L & P & _ & _ & F).
  destruct (C34_fillable a c ss s' q M Ab Ne Al Pal Rm E) as [t0 F0]. destruct (F t0 F0) as (B & T & _).
  destruct F0 as (L0 & K0 & S0 & Q0).
  assert (Hs : (slot_count <= length s')%nat).
  { rewrite L. unfold slot_count. destruct (sym c); [apply Nat.div_le_upper_bound; lia|lia]. }
  replace (if sym c then (length s' / 2)%nat else length s') with slot_count in Q0 by (rewrite L; reflexivity).
  pose proof (fill_perm s' t0 q slot_count Hs L0 K0 Q0) as P0.
  pose proof middle_known as Mk.
  assert (G : Permutation t0 t).
  { assert (Ph : Permutation (firstn slot_count t0) (firstn slot_count t)) by (rewrite P0, Pm; reflexivity).
    unfold slot_count in Ph. destruct (sym c) eqn:Sy.
    - apply mirror_perm; [lia|auto|auto| |].
      + unfold first_half. rewrite L0, Lt, L. exact Ph.
      + rewrite Lt. intros O. rewrite (Md eq_refl O). apply K0; [rewrite L; apply Nat.div_lt; [destruct ss; [congruence|cbn [length]; lia]|lia]|].
        pose proof (Mk eq_refl O) as A. unfold angle_ok in A. lia.
    - rewrite (firstn_all2 t0), (firstn_all2 t) in Ph by lia. exact Ph. }
  split; [intros I; exact (balanced_perm _ _ G (B I))|exact (ten_perm _ _ _ _ _ _ G T)].
Qed.
End First.

(* ------------------------------------------------------------------ *)
(** without the rule of Abdalla, the second step changes nothing when it returns *)
Lemma membrane_same c cos_sin distA coeffs target switch fuel p_A ss q m l : (rule_10_percent c && rule_10_Abdalla c)%bool = false ->
  repair_membrane c cos_sin distA coeffs target switch fuel p_A ss q m = Ok l -> l = [(ss, q)].
Proof.
  intros Ab H. destruct switch; [destruct (no_coeffs coeffs) eqn:Nc|].
  - unfold repair_membrane in H. rewrite Nc in H. cbn [negb orb] in H. destruct (calc_lampamA_ply_queue _ _ _ _); cbn [bind] in H; [|discriminate]. injection H as <-. reflexivity.
  - exfalso. eapply C36_membrane_plain_refuted; [exact Ab|exact Nc|exact H].
  - unfold repair_membrane in H. cbn [negb orb] in H. destruct (calc_lampamA_ply_queue _ _ _ _); cbn [bind] in H; [|discriminate]. injection H as <-. reflexivity.
Qed.

Section C63.
Variable c : cons.
Variable cos_sin : Z -> nat -> Q.
Variable distA : vec -> Q.
Variables (wA wD target : list Q).
Variable p : rparams.
Let run := repair_ss c cos_sin distA wA wD target p.

(** a repair that fails returns the laminate it was given *)
Theorem C63_failure : forall with_obj ss t o, run with_obj ss = Ok (t, false, o) ->
  t = ss /\ o = if with_obj then Some 10000000000%Q else None.
Proof.
  intros with_obj ss t o. unfold run, repair_ss. destruct (repair_10_bal_all _ _ _ _ _ _); cbn [bind]; [|discriminate].
  destruct (repair_membrane _ _ _ _ _ _ _ _ _ _ _); cbn [bind]; [|discriminate].
  destruct (repair_diso_contig_list _ _ _) as [[[[s i] ou] k]|]; cbn [bind]; [|discriminate].
  destruct ou; cbn [negb].
  - destruct (repair_flexural _ _ _ _ _ _ _ _ _); cbn [bind]; [|discriminate]. destruct with_obj; discriminate.
  - intros X. injection X as <- <-. auto.
Qed.

(** a successful repair never reports an objective: the objective function is called with a
    parameter it does not have *)
Theorem C63_objective_refuted : forall ss t o, run true ss <> Ok (t, true, o).
Proof.
  intros ss t o. unfold run, repair_ss. destruct (repair_10_bal_all _ _ _ _ _ _); cbn [bind]; [|discriminate].
  destruct (repair_membrane _ _ _ _ _ _ _ _ _ _ _); cbn [bind]; [|discriminate].
  destruct (repair_diso_contig_list _ _ _) as [[[[s i] ou] k]|]; cbn [bind]; [|discriminate].
  destruct ou; cbn [negb]; [|discriminate]. destruct (repair_flexural _ _ _ _ _ _ _ _ _); cbn [bind]; discriminate.
Qed.

(** the steps of a successful repair *)
Lemma steps with_obj ss t o : run with_obj ss = Ok (t, true, o) ->
  exists r l s i k, repair_10_bal_all c cos_sin distA (r_fuel p) ss (calc_mini_10 c (length ss)) = Ok r /\
    repair_membrane c cos_sin distA (vec_from 0 wA) (vec_from 0 target) (r_membrane p) (r_fuel p) (r_p_A p) (fst r) (snd r) (calc_mini_10 c (length ss)) = Ok l /\
    repair_diso_contig_list c (r_n_D1 p) l = Ok (s, i, true, k) /\
    repair_flexural c cos_sin (vec_from 0 wD) (vec_from 8 target) false (r_flexural p) (r_n_D2 p) (r_n_D3 p) s = Ok t.
Proof.
  unfold run, repair_ss. destruct (repair_10_bal_all _ _ _ _ _ _) as [r|] eqn:E1; cbn [bind]; [|discriminate].
  destruct (repair_membrane _ _ _ _ _ _ _ _ _ _ _) as [l|] eqn:E2; cbn [bind]; [|discriminate].
  destruct (repair_diso_contig_list _ _ _) as [[[[s i] ou] k]|] eqn:E3; cbn [bind]; [|discriminate].
  destruct ou; cbn [negb]; [|discriminate]. destruct (repair_flexural _ _ _ _ _ _ _ _ _) as [u|] eqn:E4; cbn [bind]; [|discriminate].
  destruct with_obj; [discriminate|]. intros X. injection X as <- _. exists r, l, s, i, k. auto.
Qed.

Hypothesis Hobj : forall u, (oop_objective cos_sin (vec_from 0 wD) (vec_from 8 target) u <= 10000000000)%Q.

(** whatever the rules, a repaired laminate is made of allowed angles, plies at 0 and unknown
    plies, and is symmetric when the rules ask for symmetry *)
Theorem C63_plies : forall a with_obj ss t o, mk_cons a = Ok c -> Forall (fun x => In x (set_of_angles c)) ss ->
  run with_obj ss = Ok (t, true, o) ->
  Forall (fun x => x = 666 \/ x = 0 \/ In x (set_of_angles c)) t /\ (sym c = true -> t = rev t).
Proof.
  intros a with_obj ss t o M Al H. apply steps in H. destruct H as ([s0 q0] & l & s & i & k & E1 & E2 & E3 & E4). cbn [fst snd] in *.
  pose proof (mk_cons_consistent a c M) as K.
  set (A := fun x => x = 0 \/ In x (set_of_angles c)).
  destruct (k_set c K) as (_ & _ & Kn & _ & K10).
  assert (A0 : A 0) by now left. assert (Aset : forall a, In a (set_of_angles c) -> A a) by (intros; now right).
  assert (Aneg : forall a, A a -> a <> 90 -> A (- a)) by (intros x [->|Ha] Na; [now left|right; auto]).
  assert (A10 : rule_10_percent c = true -> A 90 /\ A 45 /\ A (-45)) by (intros R; destruct (K10 R) as (_ & B1 & B2 & B3); unfold A; auto).
  apply (repair_all_P c cos_sin distA A A0 Aset Aneg A10) in E1; [|eapply Forall_impl; [|exact Al]; intros; apply Aset; assumption].
  pose proof (membrane_P c cos_sin distA A A0 Aset Aneg A10 _ _ _ _ _ _ _ _ _ E1 E2) as G.
  apply (repair_list_P c (fun x => x = 666 \/ x = 0 \/ In x (set_of_angles c))) in E3; [|now right; left|].
  2: { intros u q Hu. destruct (G _ Hu) as [F1 F2]. cbn [fst snd] in *. split; [exact F1|]. eapply Forall_impl; [|exact F2]. intros; now right. }
  destruct E3 as [Fs Ps]. apply C36_flexural_partial in E4; [|exact Ps|intros; apply Hobj]. destruct E4 as (Pt & Mt & _).
  split; [|exact Mt]. rewrite Forall_forall in *. intros x Hx. apply Fs. eapply Permutation_in; [exact Pt|exact Hx].
Qed.

(** symmetric laminates: a repair reported as successful gives a complete symmetric laminate
    that satisfies the balance and 10% rules, keeps the protected outer plies, and satisfies the
    disorientation and contiguity rules, as long as the outer plies stay known in the first step,
    the rules leave room for the 10% rule and the sizes are those of [C35_symmetric_partial] *)
Theorem C63_repaired_symmetric_partial : forall a with_obj ss t o,
  mk_cons a = Ok c -> (rule_10_percent c && rule_10_Abdalla c)%bool = false -> (contig c = true -> (2 <= n_contig c <= 6)%nat) -> (diso c = true -> 0 <= delta_angle c) ->
  sym c = true -> ss = rev ss -> ss <> [] -> Forall angle_ok ss -> room c (length ss) -> (2 * n_known_outer c <= length ss)%nat ->
  let first := fst (repair_10_bal c ss (calc_mini_10 c (length ss))) in
  (forall i, (i < n_known_outer c)%nat -> nth i first 0 <> 666) ->
  run with_obj ss = Ok (t, true, o) ->
  length t = length ss /\ t = rev t /\ complete t /\
  (bal c = true -> balanced t) /\ ten_spec 0 false false c t /\
  (forall i, (i < Properties_membrane.n_protected c)%nat -> nth i t 0 = nth i ss 0) /\
  (Nat.even (length ss) = true ->
    (diso c = true -> ~ two_protected c -> diso_stack (delta_angle c) t) /\
    (contig c = true -> (n_contig c <= r_n_D1 p + 1)%nat -> (n_contig c + n_known_outer c <= length ss / 2 + 1)%nat ->
      (two_protected c -> nth 0 ss 0 <> nth 1 ss 0) -> contig_stack (n_contig c) t)).
Proof.
  intros a with_obj ss t o M Ab Hc Hdel Sy Pal Ne Al Rm Hn first Ko H. apply steps in H. destruct H as (r & l & s & i & k & E1 & E2 & E3 & E4).
  pose proof (mk_cons_consistent a c M) as K.
  destruct (repair_10_bal c ss (calc_mini_10 c (length ss))) as [s' q] eqn:E. subst first. cbn [fst] in Ko.
  assert (Pal' : sym c = true -> ss = rev ss) by auto.
  destruct (first_queue_ok a c ss s' q M Ab Al E cos_sin distA (r_fuel p)) as (Fq & Fs' & E1'). rewrite E1' in E1. injection E1 as <-. cbn [fst snd] in E2.
  apply membrane_same in E2; [|exact Ab]. subst l.
  destruct (C34_repair a c ss s' q M Ab Ne Al Pal' Rm E) as (L & P & Sm & _ & _). specialize (P Sy).
  destruct (first_size a c ss s' q M Ab Ne Al Pal' Rm E) as [Lq Fk]. unfold slot_count in Lq, Fk. rewrite Sy in Lq, Fk.
  pose proof (middle_known a c ss s' q M Ab Ne Al Pal' Rm E Sy) as Fm.
  assert (R : contig_supported c).
  { intros Co. split; [auto|]. apply (k_contig_on c K Co). }
  rewrite <- L in Hn, Lq, Fk, Fm.
  destruct (C35_symmetric_partial c (r_n_D1 p) s' q Sy R Hdel P Hn Ko Lq Fk Fq Fm) as (s1 & inw & outw & E5 & L1 & P1 & F1 & Pm1 & Md1 & Dt1 & G1 & _).
  unfold repair_diso_contig_list in E3. cbn [repair_list_loop] in E3. rewrite E5 in E3. cbn [bind] in E3.
  destruct (inw || outw)%bool eqn:Io; cbn [Nat.eqb] in E3; [|discriminate]. injection E3 as -> -> -> _.
  assert (Pt : Permutation t s /\ (sym c = true -> t = rev t) /\ reordered c s t).
  { destruct (C36_flexural_partial c cos_sin _ _ _ _ _ _ s t (fun _ => P1) (fun u _ => Hobj u) E4) as (X1 & X2 & X3 & _). split; [exact X1|]. split; [exact X2|]. apply X3. now left. }
  destruct Pt as (Pt & Mt & Ro). specialize (Mt Sy).
  assert (Ft : complete t) by (unfold complete in *; rewrite Forall_forall in *; intros x Hx; apply F1; eapply Permutation_in; [exact Pt|exact Hx]).
  destruct (completed a c ss s' q M Ab Ne Al Pal' Rm E s) as [Bs Ts].
  { lia. }
  { intros _. exact P1. }
  { unfold slot_count. rewrite Sy. unfold first_half in Pm1. rewrite L1, L in Pm1. exact Pm1. }
  { intros _. rewrite <- L. exact Md1. }
  split; [rewrite (Permutation_length Pt); lia|]. split; [exact Mt|]. split; [exact Ft|].
  split; [intros B; apply (balanced_perm s t); [symmetry; exact Pt|]; apply Bs; rewrite (k_ipo c K); exact B|].
  split; [apply (ten_perm _ _ _ _ s t); [symmetry; exact Pt|exact Ts]|].
  assert (Out : forall i, (i < n_known_outer c)%nat -> nth i s' 0 = nth i ss 0).
  { intros j Hj. destruct (Sm j) as [X|[X|(_ & X & _)]]; [lia|specialize (Ko j Hj); contradiction|exact X|lia]. }
  pose proof (n_outer_out_cases c) as Hd0. change (n_outer_out c) with (n_known_outer c) in Hd0.
  assert (Pk : (Properties_membrane.n_protected c <= n_known_outer c)%nat).
  { unfold Properties_membrane.n_protected, n_known_outer. destruct (dam_tol c); [|lia]. cbn [andb]. destruct (dam_tol_rule c) as [|[|[|[|?]]]]; cbn; lia. }
  assert (Keep : forall i, (i < Properties_membrane.n_protected c)%nat -> nth i s 0 = nth i ss 0).
  { intros j Hj. unfold Properties_membrane.n_protected in Hj. destruct (dam_tol c) eqn:Dt; [|lia]. destruct (Dt1 eq_refl) as [Z0 Z1].
    destruct j as [|j]; [rewrite Z0; apply Out; lia|]. destruct (Nat.eq_dec (dam_tol_rule c) 2) as [R2|R2]; [|destruct (Nat.eq_dec (dam_tol_rule c) 3) as [R3|R3]; [|destruct (dam_tol_rule c) as [|[|[|[|?]]]]; lia]].
    - assert (T : two_protected c) by (split; auto). rewrite R2 in Hj. assert (j = 0%nat) as -> by lia. rewrite Z1 by exact T. apply Out. destruct (n_outer_out_spec c) as [X _]. specialize (X T). change (n_known_outer c) with (n_outer_out c). lia.
    - assert (T : two_protected c) by (split; auto). rewrite R3 in Hj. assert (j = 0%nat) as -> by lia. rewrite Z1 by exact T. apply Out. destruct (n_outer_out_spec c) as [X _]. specialize (X T). change (n_known_outer c) with (n_outer_out c). lia. }
  split.
  { intros j Hj. rewrite (ro_outer _ _ _ Ro); [apply Keep, Hj|lia|lia]. }
  intros Ev. destruct G1 as [D1 C1]; [right; reflexivity|].
  assert (Od : sym c = true -> Nat.odd (length s) = false) by (intros _; rewrite L1, L, <- Nat.negb_even, Ev; reflexivity).
  destruct (C36_flexural_guidelines a c cos_sin _ _ _ _ _ _ s t M Hc F1 (fun _ => P1) Od (fun u _ => Hobj u) E4) as [G1 G2].
  split.
  - intros Di Np. apply G1; [exact Di|]. apply (proj1 (D1 Di)), Np.
  - intros Co H1 H2 H3. apply G2; [exact Co|]. apply C1; [exact H1|rewrite L; exact H2| |exact Co]. intros T. specialize (H3 T). destruct (n_outer_out_spec c) as [X _]. specialize (X T). change (n_outer_out c) with (n_known_outer c) in X. rewrite !Out by lia. exact H3.
Qed.

(** laminates that need not be symmetric *)
Theorem C63_repaired_asymmetric_partial : forall a with_obj ss t o,
  mk_cons a = Ok c -> (rule_10_percent c && rule_10_Abdalla c)%bool = false -> (contig c = true -> (2 <= n_contig c <= 6)%nat) ->
  sym c = false -> ss <> [] -> Forall angle_ok ss -> room c (length ss) -> (2 * n_known_outer c < length ss)%nat ->
  let first := fst (repair_10_bal c ss (calc_mini_10 c (length ss))) in
  (forall i, (i < n_known_outer c)%nat -> nth i first 0 <> 666 /\ nth (length ss - 1 - i) first 0 <> 666) ->
  run with_obj ss = Ok (t, true, o) ->
  length t = length ss /\ complete t /\ (bal c = true -> balanced t) /\ ten_spec 0 false false c t /\
  ((1 <= r_n_D1 p)%nat -> fully_checked c (r_n_D1 p) (length ss) ->
    (diso c = true -> ~ two_protected c -> diso_stack (delta_angle c) t) /\
    (contig c = true -> (n_contig c <= r_n_D1 p)%nat -> (n_contig c + 2 * n_known_outer c <= length ss)%nat ->
      (two_protected c -> nth 0 ss 0 <> nth 1 ss 0 /\ nth (length ss - 1) ss 0 <> nth (length ss - 2) ss 0) -> contig_stack (n_contig c) t)).
Proof.
  intros a with_obj ss t o M Ab Hc Sy Ne Al Rm Hn first Ko H. apply steps in H. destruct H as (r & l & s & i & k & E1 & E2 & E3 & E4).
  pose proof (mk_cons_consistent a c M) as K.
  destruct (repair_10_bal c ss (calc_mini_10 c (length ss))) as [s' q] eqn:E. subst first. cbn [fst] in Ko.
  assert (Pal' : sym c = true -> ss = rev ss) by congruence.
  destruct (first_queue_ok a c ss s' q M Ab Al E cos_sin distA (r_fuel p)) as (Fq & Fs' & E1'). rewrite E1' in E1. injection E1 as <-. cbn [fst snd] in E2.
  apply membrane_same in E2; [|exact Ab]. subst l.
  destruct (C34_repair a c ss s' q M Ab Ne Al Pal' Rm E) as (L & _ & Sm & _ & _).
  destruct (first_size a c ss s' q M Ab Ne Al Pal' Rm E) as [Lq Fk]. unfold slot_count in Lq, Fk. rewrite Sy, firstn_all2 in Lq by lia. rewrite Sy, firstn_all2 in Fk by lia.
  assert (R : contig_supported c).
  { intros Co. split; [auto|]. apply (k_contig_on c K Co). }
  rewrite <- L in Hn, Ko.
  destruct (C35_asymmetric_partial c (r_n_D1 p) s' q Sy R Hn Ko Lq Fk Fq) as (s1 & inw & outw & E5 & L1 & F1 & Pm1 & _ & G1).
  unfold repair_diso_contig_list in E3. cbn [repair_list_loop] in E3. rewrite E5 in E3. cbn [bind] in E3.
  destruct (inw || outw)%bool eqn:Io; cbn [Nat.eqb] in E3; [|discriminate]. injection E3 as -> -> -> _.
  assert (Sf : forall u : list Z, sym c = true -> u = rev u) by (intros; congruence).
  pose proof (C36_flexural_partial c cos_sin _ _ _ _ _ _ s t (Sf s) (fun u _ => Hobj u) E4) as (Pt & _).
  assert (Ft : complete t) by (unfold complete in *; rewrite Forall_forall in *; intros x Hx; apply F1; eapply Permutation_in; [exact Pt|exact Hx]).
  destruct (completed a c ss s' q M Ab Ne Al Pal' Rm E s) as [Bs Ts].
  { lia. }
  { apply Sf. }
  { unfold slot_count. rewrite Sy, !firstn_all2 by lia. exact Pm1. }
  { congruence. }
  split; [rewrite (Permutation_length Pt); lia|]. split; [exact Ft|].
  split; [intros B; apply (balanced_perm s t); [symmetry; exact Pt|]; apply Bs; rewrite (k_ipo c K); exact B|].
  split; [apply (ten_perm _ _ _ _ s t); [symmetry; exact Pt|exact Ts]|].
  intros H1 H2. rewrite <- L in H2. destruct G1 as [D1 C1]; [right; reflexivity|exact H1|exact H2|].
  destruct (C36_flexural_guidelines a c cos_sin _ _ _ _ _ _ s t M Hc F1 (Sf s) ltac:(congruence) (fun u _ => Hobj u) E4) as [G1 G2].
  split.
  - intros Di Np. apply G1; [exact Di|]. apply (proj1 (D1 Di)), Np.
  - intros Co Q1 Q2 Q3. apply G2; [exact Co|]. apply C1; [exact Q1|rewrite L; exact Q2| |exact Co]. intros T. specialize (Q3 T).
    destruct (n_outer_out_spec c) as [X _]. specialize (X T). change (n_outer_out c) with (n_known_outer c) in X.
    assert (Out : forall j, (j < length ss)%nat -> nth j s' 0 <> 666 -> nth j s' 0 = nth j ss 0).
    { intros j Hj N. destruct (Sm j Hj) as [Y|[Y|(Y & _)]]; [contradiction|exact Y|congruence]. }
    destruct (Ko 0%nat ltac:(lia)) as [K1 K2]. destruct (Ko 1%nat ltac:(lia)) as [K3 K4].
    replace (length s' - 1 - 0)%nat with (length s' - 1)%nat in K2 by lia. replace (length s' - 1 - 1)%nat with (length s' - 2)%nat in K4 by lia.
    rewrite !Out by (try assumption; lia). rewrite L. exact Q3.
Qed.
End C63.

(* ------------------------------------------------------------------ *)
(** examples: default sizes, the refinements switched off *)
Definition args_ss (dt : bool) : cargs := {|
  a_sym := true; a_bal := true; a_oopo := false; a_dam_tol := dt;
  a_rule_10_percent := true; a_rule_10_Abdalla := false; a_percent_Abdalla := 0;
  a_combine_45_135 := true; a_calc_combine_45_135 := true;
  a_percent_0 := 10; a_percent_45 := 0; a_percent_90 := 10; a_percent_135 := 0;
  a_percent_45_135 := 10;
  a_diso := negb dt; a_contig := true; a_n_contig := 3; a_delta_angle := 45;
  a_dam_tol_rule := 2; a_set_of_angles := [0; 45; 90; -45]; a_min_drop := 1;
  a_pdl_spacing := false; a_covering := false; a_n_covering := 0 |}.
Definition params_ss : rparams := {| r_membrane := false; r_flexural := false; r_p_A := 100; r_n_D1 := 6; r_n_D2 := 10; r_n_D3 := 2; r_local := 1; r_global := 1; r_fuel := 10 |}.
Definition conforming (c : cons) (t : list Z) : Prop :=
  complete t /\ (bal c = true -> balanced t) /\ ten_spec 0 false false c t /\ diso_rule c t /\ contig_rule c t /\
  (dam_tol c = true -> dam_tol_rule c = 2%nat -> damtol2 t).

(** a repair reported as successful may leave unknown plies in the laminate *)
Theorem C63_unknown_ply_refuted : ~ (forall a c cos_sin distA wA wD target p ss t o,
  mk_cons a = Ok c -> (rule_10_percent c && rule_10_Abdalla c)%bool = false -> Forall (fun x => In x (set_of_angles c)) ss -> ss = rev ss ->
  room c (length ss) -> repair_ss c cos_sin distA wA wD target p false ss = Ok (t, true, o) -> complete t).
Proof.
  intros H. destruct (mk_cons (args_ss true)) as [c|] eqn:E; [|vm_compute in E; discriminate].
  specialize (H (args_ss true) c cos_sin_4 (fun _ => 0%Q) [] [] [] params_ss [45; 45; 0; 0; 0; 0; 45; 45] [45; 666; 0; 90; 90; 0; 666; 45] None E).
  vm_compute in E. injection E as <-.
  assert (X : complete [45; 666; 0; 90; 90; 0; 666; 45]).
  { apply H; [reflexivity| |reflexivity|vm_compute; discriminate|vm_compute; reflexivity]. repeat (apply Forall_cons; [cbn; tauto|]); apply Forall_nil. }
  inversion X as [|x l _ Y]; subst. inversion Y as [|x l Z _]; subst. unfold angle_ok in Z. lia.
Qed.
(** nor does it enforce the damage tolerance rule *)
Theorem C63_damage_tolerance_refuted : ~ (forall a c cos_sin distA wA wD target p ss t o,
  mk_cons a = Ok c -> (rule_10_percent c && rule_10_Abdalla c)%bool = false -> Forall (fun x => In x (set_of_angles c)) ss -> ss = rev ss ->
  room c (length ss) -> repair_ss c cos_sin distA wA wD target p false ss = Ok (t, true, o) -> dam_tol c = true -> dam_tol_rule c = 2%nat -> damtol2 t).
Proof.
  intros H. destruct (mk_cons (args_ss true)) as [c|] eqn:E; [|vm_compute in E; discriminate].
  specialize (H (args_ss true) c cos_sin_4 (fun _ => 0%Q) [] [] [] params_ss [0; 0; 0; 0; 0; 0; 0; 0] [0; 666; 90; 45; 45; 90; 666; 0] None E).
  vm_compute in E. injection E as <-.
  destruct H as [(x & m & Ex & P) _]; [reflexivity| |reflexivity|vm_compute; discriminate|vm_compute; reflexivity|reflexivity|reflexivity|].
  - repeat (apply Forall_cons; [cbn; tauto|]); apply Forall_nil.
  - injection Ex as <- _ _. destruct P; discriminate.
Qed.

(** a laminate that meets the hypotheses of [C63_repaired_symmetric_partial], with the
    refinement of the flexural stiffness switched on *)
Definition params_ss_on : rparams := {| r_membrane := false; r_flexural := true; r_p_A := 100; r_n_D1 := 6; r_n_D2 := 10; r_n_D3 := 2; r_local := 1; r_global := 1; r_fuel := 10 |}.
Definition poor : list Z := let h := [45; 0; 0; 0; 0; -45; 0; 45; 0; 90] in h ++ rev h.
Example C63_example : exists c t, mk_cons (args_ss false) = Ok c /\ (rule_10_percent c && rule_10_Abdalla c)%bool = false /\
  (contig c = true -> (2 <= n_contig c <= 6)%nat) /\ (diso c = true -> 0 <= delta_angle c) /\ sym c = true /\ bal c = true /\ diso c = true /\ contig c = true /\
  poor = rev poor /\ Forall angle_ok poor /\ ~ balanced poor /\ room c (length poor) /\ (2 * n_known_outer c <= length poor)%nat /\
  (forall i, (i < n_known_outer c)%nat -> nth i (fst (repair_10_bal c poor (calc_mini_10 c (length poor)))) 0 <> 666) /\
  (n_contig c <= r_n_D1 params_ss_on + 1)%nat /\ (n_contig c + n_known_outer c <= length poor / 2 + 1)%nat /\ ~ two_protected c /\
  (forall u, (oop_objective cos_sin_4 (vec_from 0 [1; 1; 1; 1]) (vec_from 8 (repeat 0 12)) u <= 10000000000)%Q) /\
  repair_ss c cos_sin_4 (fun _ => 0%Q) [1; 1; 1; 1]%Q [1; 1; 1; 1]%Q (repeat 0%Q 12) params_ss_on false poor = Ok (t, true, None) /\
  t = [-45; 90; 45; 0; 0; 45; 0; 0; 0; -45; -45; 0; 0; 0; 45; 0; 0; 45; 90; -45].
Proof.
  destruct (mk_cons (args_ss false)) as [c|] eqn:E; [|vm_compute in E; discriminate]. exists c, [-45; 90; 45; 0; 0; 45; 0; 0; 0; -45; -45; 0; 0; 0; 45; 0; 0; 45; 90; -45].
  vm_compute in E. injection E as <-. split; [reflexivity|]. split; [reflexivity|]. split; [intros _; cbn; lia|]. split; [intros _; vm_compute; discriminate|]. do 5 (split; [reflexivity|]).
  split; [apply angles4; reflexivity|]. split. { intros B. specialize (B 45 ltac:(lia) ltac:(cbn; lia)). discriminate B. }
  split; [vm_compute; discriminate|]. split; [cbn; lia|]. split. { intros i Hi. vm_compute in Hi. assert (i = 0%nat) as -> by lia. vm_compute. discriminate. }
  split; [cbn; lia|]. split; [cbn; lia|]. split; [intros [X _]; discriminate|]. split; [|split; [vm_compute; reflexivity|reflexivity]].
  intros u. unfold vec_from. apply oop_objective_bound; [apply cos_sin_4_bound| |]; intros i; cbn [Nat.add].
  - do 4 (destruct i as [|i]; [cbn; lra|]). destruct i; cbn; lra.
  - do 4 (destruct i as [|i]; [cbn; lra|]). destruct i; cbn; lra.
Qed.

Definition args_ss_asym : cargs := {|
  a_sym := false; a_bal := true; a_oopo := false; a_dam_tol := false;
  a_rule_10_percent := true; a_rule_10_Abdalla := false; a_percent_Abdalla := 0;
  a_combine_45_135 := true; a_calc_combine_45_135 := true;
  a_percent_0 := 10; a_percent_45 := 0; a_percent_90 := 10; a_percent_135 := 0;
  a_percent_45_135 := 10;
  a_diso := true; a_contig := true; a_n_contig := 3; a_delta_angle := 45;
  a_dam_tol_rule := 2; a_set_of_angles := [0; 45; 90; -45]; a_min_drop := 1;
  a_pdl_spacing := false; a_covering := false; a_n_covering := 0 |}.
Definition poor_asym : list Z := [45; 0; 0; -45; 0; 45; 0; 0; 45; 0; -45; 0; 0; 0; 45; 0; 45].
Example C63_asymmetric_example : exists c t, mk_cons args_ss_asym = Ok c /\ (rule_10_percent c && rule_10_Abdalla c)%bool = false /\
  sym c = false /\ Forall angle_ok poor_asym /\ ~ balanced poor_asym /\ room c (length poor_asym) /\ (2 * n_known_outer c < length poor_asym)%nat /\
  (forall i, (i < n_known_outer c)%nat -> let f := fst (repair_10_bal c poor_asym (calc_mini_10 c (length poor_asym))) in nth i f 0 <> 666 /\ nth (length poor_asym - 1 - i) f 0 <> 666) /\
  fully_checked c 6 (length poor_asym) /\ (n_contig c <= 6)%nat /\ (n_contig c + 2 * n_known_outer c <= length poor_asym)%nat /\
  repair_ss c cos_sin_4 (fun _ => 0%Q) [] [] [] params_ss false poor_asym = Ok (t, true, None).
Proof.
  destruct (mk_cons args_ss_asym) as [c|] eqn:E; [|vm_compute in E; discriminate]. exists c. eexists.
  vm_compute in E. injection E as <-. split; [reflexivity|]. split; [reflexivity|]. split; [reflexivity|].
  split; [apply angles4; reflexivity|]. split. { intros B. specialize (B 45 ltac:(lia) ltac:(cbn; lia)). discriminate B. }
  split; [vm_compute; discriminate|]. split; [cbn; lia|]. split. { intros i Hi. vm_compute in Hi. assert (i = 0%nat) as -> by lia. vm_compute. split; discriminate. }
  split; [vm_compute; discriminate|]. split; [cbn; lia|]. split; [cbn; lia|]. vm_compute. reflexivity.
Qed.

Print Assumptions C63_failure.
Print Assumptions C63_objective_refuted.
Print Assumptions C63_plies.
Print Assumptions C63_repaired_symmetric_partial.
Print Assumptions C63_repaired_asymmetric_partial.
Print Assumptions C63_unknown_ply_refuted.
Print Assumptions C63_damage_tolerance_refuted.
Print Assumptions C63_example.
