(* Properties_abdalla10.v - C55, the repair for the 10% rule of Abdalla
   (RELAY/repair_10_bal.py), and C56, the distance to its region
   (guidelines/ten_percent_rule_Abdalla.py). *)
From Coq Require Import Lqa Qround Sorted.
From Verif Require Import Base Uniq Constraints Guidelines SpecGuidelines ConstraintsProofs GateProofs Divers DiversProofs Divide DivideProofs
  Search SearchProofs Repair10 Repair10Proofs Properties_guidelines Properties_repair10 Membrane MembraneProofs Properties_membrane Abdalla10 AbdallaProofs.
Local Open Scope Z_scope.

(* ------------------------------------------------------------------ *)
(** ** The queue holds allowed angles *)
Lemma remove1_in a l x : In x (remove1 a l) -> In x l.
Proof. induction l as [|b l IH]; cbn; [auto|]. destruct (b =? a); cbn; tauto. Qed.

Lemma queue_in ipo (S : list Z) l : (forall a, In a S -> a <> 90 -> In (- a) S) -> Forall (fun a => In a S) l -> forall q m k q2 m2 ch,
  Forall (fun a => In a S) q -> queue_loop ipo l q m = (k, q2, m2, ch) -> Forall (fun a => In a S) q2.
Proof.
  intros Hneg. induction l as [|a l IH]; intros Hl q m k q2 m2 ch Hq E; cbn [queue_loop] in E.
  - congruence.
  - inversion Hl as [|? ? Ha Hl']; subst. unfold take_ply in E.
    set (q' := if memb a q then remove1 a q else if (ipo && negb ((a =? 0) || (a =? 90)))%bool then q ++ [- a] else q) in *.
    assert (Hq' : Forall (fun a => In a S) q').
    { unfold q'. destruct (memb a q).
      - rewrite Forall_forall in *. intros x Hx. apply Hq. eapply remove1_in, Hx.
      - destruct (_ && _)%bool eqn:Ea; [|exact Hq]. apply Forall_app. split; [exact Hq|]. constructor; [|constructor].
        apply andb_true_iff in Ea. destruct Ea as [_ Ea]. apply negb_true_iff, orb_false_iff in Ea. destruct Ea as [_ Ea]. apply Z.eqb_neq in Ea. auto. }
    set (m' := if memb a q then m else if (negb ipo && ((a =? 45) || (a =? -45)))%bool then Z.max 0 (m - 1) else m).
    assert (Et : (if memb a q then (remove1 a q, m) else (if (ipo && negb ((a =? 0) || (a =? 90)))%bool then q ++ [- a] else q, if (negb ipo && ((a =? 45) || (a =? -45)))%bool then Z.max 0 (m - 1) else m)) = (q', m'))
      by (unfold q', m'; destruct (memb a q); reflexivity).
    rewrite Et in E. destruct (zlen l <? zlen q' + m'); [congruence|].
    destruct (queue_loop ipo l q' m') as [[[k' q2'] m2'] ch'] eqn:El. assert (q2 = q2') as -> by congruence.
    eapply IH; eauto.
Qed.

Lemma repair_2_queue c ss s' q : consistent c -> rule_10_percent c = true -> Forall (fun a => In a (set_of_angles c)) ss ->
  repair_10_bal_2 c ss (calc_mini_10 c (length ss)) = (s', q) ->
  Forall (fun a => In a (set_of_angles c)) q /\ (sym c = true -> Nat.odd (length ss) = true -> nth (length ss / 2) s' 0 <> 666).
Proof.
  intros K R10 Hs R. destruct (k_set _ K) as [Nd [Ok [Hneg [_ H10]]]]. destruct (H10 R10) as (S0 & S45 & S90 & Sm45).
  unfold repair_10_bal_2 in R. rewrite R10 in R. rewrite andb_false_r in R. cbv zeta in R.
  assert (Hm : Forall (fun a => In a (set_of_angles c)) (set_middle (sym c) ss)).
  { unfold set_middle. destruct (_ && _)%bool; [|exact Hs]. rewrite Forall_forall in *. intros x Hx.
    apply (In_nth _ _ 0) in Hx. destruct Hx as [i [Hi <-]]. rewrite upd_length in Hi. rewrite nth_upd. destruct (_ && _)%bool; [exact S0|apply Hs, nth_In, Hi]. }
  destruct (queue_loop _ _ _ _) as [[[k q2] m2] ch] eqn:E. apply pair_equal_spec in R. destruct R as [<- <-]. rewrite !set_middle_length in *.
  split.
  - assert (Hq2 : Forall (fun a => In a (set_of_angles c)) q2).
    { eapply queue_in; [exact Hneg| | |exact E].
      - rewrite Forall_forall in *. intros x Hx. apply in_map_iff in Hx. destruct Hx as [i [<- Hi]]. apply ind_plies_in in Hi. apply Hm, nth_In.
        rewrite set_middle_length. revert Hi. unfold slots. destruct (sym c); [|lia].
        pose proof (Nat.div_le_upper_bound (length ss) 2 (length ss) ltac:(lia) ltac:(lia)). lia.
      - unfold first_queue. rewrite R10. repeat (apply Forall_app; split); apply Forall_forall; intros x Hx; apply repeat_spec in Hx; subst; assumption. }
    assert (Hq3 : Forall (fun a => In a (set_of_angles c)) (q2 ++ extra_45 m2)).
    { apply Forall_app. split; [exact Hq2|]. apply Forall_forall. intros x Hx. unfold extra_45 in Hx. apply in_map_iff in Hx. destruct Hx as [i [<- _]]. destruct (Nat.odd i); assumption. }
    destruct (_ && _)%bool; [apply Forall_app; split; [exact Hq3|repeat constructor; exact S0]|exact Hq3].
  - intros Es Ho. rewrite (forget_middle (sym c) (length ss) k) by (auto; apply set_middle_length).
    destruct (set_middle_mid (sym c) ss Es Ho) as [[X|X] _]; rewrite X; lia.
Qed.

Lemma abdalla_room c n : consistent c -> rule_10_Abdalla c = true -> room c n.
Proof.
  intros K Ab. destruct (k_pct_off _ K (or_intror Ab)) as (Z1 & Z2 & Z3 & Z4 & Z5 & _).
  unfold room, calc_mini_10. rewrite !ceil_share_0 by assumption. cbv zeta.
  replace (adjust (Z.max 0 0) 0) with (0, 0) by reflexivity.
  destruct (ipo c), (sym c); try (destruct (Nat.odd n)); cbn; lia.
Qed.

(* ------------------------------------------------------------------ *)
Section Repair.
Variable a : cargs.
Variable c : cons.
Variable cos_sin : Z -> nat -> Q.
Variable dist : vec -> Q.
Hypothesis MK : mk_cons a = Ok c.
Hypothesis R10 : rule_10_percent c = true.
Hypothesis Rab : rule_10_Abdalla c = true.
Hypothesis Hext : forall x y, (forall i, x i == y i)%Q -> (dist x == dist y)%Q.
Variable ss : list Z.
Hypothesis Hne : ss <> [].
Hypothesis Hsz : Z.of_nat (length ss) <= 6666.
Hypothesis Hin : Forall (fun x => In x (set_of_angles c)) ss.
Hypothesis Hpal : sym c = true -> ss = rev ss.

Lemma count_666_like (sy : bool) (s s' : list Z) : length s' = length s ->
  (forall i, (i < length s)%nat -> (nth i s' 0 = 666 <-> nth i s 0 = 666)) -> forall k, count 666 (firstn k s') = count 666 (firstn k s).
Proof.
  clear. revert s'. induction s as [|x s IH]; intros [|y s'] L H k; cbn in L; try lia; try reflexivity.
  destruct k as [|k]; [reflexivity|]. cbn [firstn]. rewrite !ccons.
  assert (IH' : count 666 (firstn k s') = count 666 (firstn k s)) by (apply IH; [lia|intros i Hi; apply (H (Datatypes.S i)); cbn; lia]).
  rewrite IH'.
  pose proof (H 0%nat ltac:(cbn; lia)) as H0. cbn in H0. destruct (Z.eqb_spec x 666), (Z.eqb_spec y 666); try lia; tauto.
Qed.

Lemma balance_carried ss1 q1 ss2 q2 t2 : (exists t1, fills (sym c) ss1 q1 t1 /\ balanced t1) ->
  (1 <= length ss1)%nat -> length ss2 = length ss1 -> (sym c = true -> Nat.odd (length ss1) = true -> nth (length ss1 / 2) ss1 0 <> 666 /\ nth (length ss1 / 2) ss2 0 = nth (length ss1 / 2) ss1 0) ->
  even_pairs c ss1 q1 ss2 q2 -> fills (sym c) ss2 q2 t2 -> balanced t2.
Proof.
  clear. intros [t1 [F1 B1]] Ne L M Ev F2 x Hx0 Hx90.
  pose proof (fills_content c _ _ t1 F1) as P1. pose proof (fills_content c _ _ t2 F2) as P2.
  destruct F1 as (L1 & K1 & Sy1 & _). destruct F2 as (L2 & K2 & Sy2 & _). rewrite L in *.
  assert (E : count x t2 - count (-x) t2 = count x t1 - count (-x) t1).
  { specialize (Ev x ltac:(lia) ltac:(lia)).
    destruct (sym c) eqn:Es.
    - rewrite !(count_palindrome t1), !(count_palindrome t2) by auto. rewrite L1, L2.
      rewrite (count_perm x _ _ P1), (count_perm (-x) _ _ P1), (count_perm x _ _ P2), (count_perm (-x) _ _ P2).
      destruct (Nat.odd (length ss1)) eqn:O; [|lia]. destruct (M eq_refl eq_refl) as [M1 M2].
      assert (Hh : (length ss1 / 2 < length ss1)%nat) by (apply Nat.div_lt; lia).
      rewrite K1, K2; [rewrite M2; lia|exact Hh|rewrite M2; exact M1|exact Hh|exact M1].
    - rewrite <- L1, firstn_all in P1. rewrite <- L2, firstn_all in P2.
      rewrite (count_perm x _ _ P1), (count_perm (-x) _ _ P1), (count_perm x _ _ P2), (count_perm (-x) _ _ P2). lia. }
  specialize (B1 x Hx0 Hx90). unfold count in E. lia.
Qed.

Lemma repair_all_run fuel m :
  match repair_10_bal_all c cos_sin dist fuel ss m with
  | Err e => e = OutOfFuel
  | Ok (s', q) =>
    length s' = length ss /\ (sym c = true -> s' = rev s') /\
    Forall (fun x => x = 666 \/ In x (set_of_angles c)) s' /\ Forall (fun x => In x (set_of_angles c)) q /\
    (forall i, (i < length ss)%nat -> (i < n_protected c)%nat \/ (length ss - 1 - i < n_protected c)%nat ->
       nth i s' 0 = 666 \/ nth i s' 0 = nth i ss 0 \/ (sym c = true /\ length ss = (2 * i + 1)%nat)) /\
    (exists t, fills (sym c) s' q t) /\
    (forall t, fills (sym c) s' q t -> (dist (in_plane cos_sin t) <= 1 # 10000000000)%Q /\ (bal c = true -> balanced t) /\
       (sym c = true -> Nat.odd (length ss) = true -> nth (length ss / 2) t 0 = 0 \/ nth (length ss / 2) t 0 = 90))
  end.
Proof.
  pose proof (mk_cons_consistent _ _ MK) as K. destruct (k_set _ K) as [Nd [Ok [Hneg [_ H10]]]]. destruct (H10 R10) as (S0 & S45 & S90 & Sm45).
  rewrite Forall_forall in Ok. unfold angle_ok in Ok.
  assert (Ok0 : Forall angle_ok ss) by (rewrite Forall_forall in *; intros x Hx; apply Ok, Hin, Hx).
  unfold repair_10_bal_all. rewrite R10, Rab; cbn [andb negb].
  destruct (repair_10_bal_2 c ss (calc_mini_10 c (length ss))) as [s1 q1] eqn:R.
  destruct (repair_2_spec a c ss s1 q1 MK Hne Ok0 Hpal (abdalla_room c _ K Rab) R) as (L1 & P1 & N1 & C1 & F1).
  destruct (repair_2_queue c ss s1 q1 K R10 Hin R) as [Q1 M1].
  assert (Nz : (1 <= length ss)%nat) by (destruct ss; [congruence|cbn; lia]).
  assert (Hs1 : forall i, (i < length s1)%nat -> nth i s1 0 = 666 \/ In (nth i s1 0) (set_of_angles c)).
  { intros i Hi. rewrite L1 in Hi. destruct (N1 i Hi) as [E|[E|(_ & _ & _ & E)]]; [auto| |rewrite E; auto].
    right. rewrite E. rewrite Forall_forall in Hin. apply Hin, nth_In, Hi. }
  rewrite Forall_forall in Q1.
  assert (Hsz1 : Z.of_nat (length s1) <= 6666) by (rewrite L1; exact Hsz).
  assert (Hmid : sym c = true -> Nat.odd (length s1) = true -> nth (length s1 / 2) s1 0 <> 666) by (rewrite L1; exact M1).
  assert (Hse : set_of_angles c <> []) by (intros X; rewrite X in S0; destruct S0).
  assert (Rf : refinable c s1 q1).
  { constructor; auto; [rewrite L1; auto| |apply Forall_forall; exact Q1].
    apply Forall_forall. intros x Hx. destruct (In_nth _ _ 0 Hx) as [i [Hi <-]]. auto. }
  assert (Main : forall s' q, reaches c cos_sin dist s1 q1 s' q -> (bal c = true -> even_pairs c s1 q1 s' q) ->
    length s' = length ss /\ (sym c = true -> s' = rev s') /\
    Forall (fun x => x = 666 \/ In x (set_of_angles c)) s' /\ Forall (fun x => In x (set_of_angles c)) q /\
    (forall i, (i < length ss)%nat -> (i < n_protected c)%nat \/ (length ss - 1 - i < n_protected c)%nat ->
       nth i s' 0 = 666 \/ nth i s' 0 = nth i ss 0 \/ (sym c = true /\ length ss = (2 * i + 1)%nat)) /\
    (exists t, fills (sym c) s' q t) /\
    (forall t, fills (sym c) s' q t -> (dist (in_plane cos_sin t) <= 1 # 10000000000)%Q /\ (bal c = true -> balanced t) /\
       (sym c = true -> Nat.odd (length ss) = true -> nth (length ss / 2) t 0 = 0 \/ nth (length ss / 2) t 0 = 90))).
  { intros s' q (Lk & Em & Dd) Ev. pose proof (like_keeps c 100 s1 q1 s' q Nd Rf Lk) as Kp. destruct Kp as [kl kq ku ko ks km ka].
    rewrite L1 in *. split; [exact kl|]. split; [exact ks|]. destruct ka as [ka1 ka2]. split; [exact ka1|]. split; [exact ka2|]. split; [|split].
    - intros i Hi Hp. rewrite ko; [|exact Hi|destruct Hp as [Hp|Hp]; [left|right]; left; exact Hp].
      destruct (N1 i Hi) as [E|[E|(E1 & E2 & _)]]; auto.
    - apply fills_exists; [exact ks|]. rewrite kl, kq, C1.
      symmetry. apply (count_666_like true); [rewrite L1; exact kl|rewrite L1; exact ku].
    - assert (Mz : sym c = true -> Nat.odd (length ss) = true -> nth (length ss / 2) s' 0 <> 666) by (intros E O; rewrite km by auto; auto).
      intros t Ft. split; [|split].
      + rewrite (Hext _ (lampamA_ply_queue c cos_sin s' q)); [exact Dd|]. intros i. apply fills_lampam; [rewrite kl; exact Nz|rewrite kl; exact Mz|exact Ft].
      + intros Hb. destruct (fills_exists (sym c) s1 q1 P1) as [t1 Ft1]; [rewrite L1; exact C1|].
        eapply (balance_carried s1 q1 s' q t); [|rewrite L1; exact Nz|rewrite L1; exact kl| |exact (Ev Hb)|exact Ft].
        * exists t1. split; [exact Ft1|]. apply (F1 t1 Ft1). rewrite (k_ipo _ K). exact Hb.
        * rewrite L1. intros E O. split; auto.
      + intros E O. destruct (fills_exists (sym c) s1 q1 P1) as [t1 Ft1]; [rewrite L1; exact C1|].
        destruct (F1 t1 Ft1) as (_ & _ & Mt). specialize (Mt (or_intror R10) E O).
        assert (Hh : (length ss / 2 < length ss)%nat) by (apply Nat.div_lt; lia).
        destruct Ft as (_ & Kt & _). destruct Ft1 as (_ & Kt1 & _). rewrite kl in Kt. rewrite L1 in Kt1.
        rewrite Kt by auto. rewrite km by auto. rewrite <- (Kt1 (length ss / 2)%nat Hh) by auto. exact Mt. }
  destruct (bal c) eqn:Eb.
  - pose proof (run_abdalla_ipo c cos_sin dist Nd Ok Hneg Hext s1 q1 Hsz1 P1 Hs1 Q1 Hmid fuel S0 S90) as Run.
    destruct (repair_10_Abdalla_ipo c cos_sin dist fuel s1 q1) as [[s' q]|e]; [|exact Run]. destruct Run as [H1 H2]. apply Main; auto.
  - pose proof (run_abdalla_no_ipo c cos_sin dist Nd Ok Hneg Hse Hext s1 q1 Hsz1 P1 Hs1 Q1 Hmid fuel) as Run.
    destruct (repair_10_Abdalla_no_ipo c cos_sin dist fuel s1 q1) as [[s' q]|e]; [|exact Run]. apply Main; [exact Run|discriminate].
Qed.
End Repair.

(** C55: on return with the rule of Abdalla the laminate keeps its size, its symmetry and
    its allowed angles, the queue fills the unknown plies, a ply protected by the damage
    tolerance rule is the given one unless it was released, and every laminate that fills
    the unknown plies is within 1e-10 of the region of the rule and, when balance is asked
    for, balanced; the middle ply of a symmetric laminate is a 0 or a 90 *)
Theorem C55_abdalla_repair a c cos_sin dist fuel ss m s' q :
  mk_cons a = Ok c -> rule_10_percent c = true -> rule_10_Abdalla c = true ->
  (forall x y, (forall i, x i == y i)%Q -> (dist x == dist y)%Q) ->
  ss <> [] -> Z.of_nat (length ss) <= 6666 -> Forall (fun x => In x (set_of_angles c)) ss -> (sym c = true -> ss = rev ss) ->
  repair_10_bal_all c cos_sin dist fuel ss m = Ok (s', q) ->
  length s' = length ss /\ (sym c = true -> s' = rev s') /\
  Forall (fun x => x = 666 \/ In x (set_of_angles c)) s' /\ Forall (fun x => In x (set_of_angles c)) q /\
  (forall i, (i < length ss)%nat -> (i < n_protected c)%nat \/ (length ss - 1 - i < n_protected c)%nat ->
     nth i s' 0 = 666 \/ nth i s' 0 = nth i ss 0 \/ (sym c = true /\ length ss = (2 * i + 1)%nat)) /\
  (exists t, fills (sym c) s' q t) /\
  (forall t, fills (sym c) s' q t -> (dist (in_plane cos_sin t) <= 1 # 10000000000)%Q /\ (bal c = true -> balanced t) /\
     (sym c = true -> Nat.odd (length ss) = true -> nth (length ss / 2) t 0 = 0 \/ nth (length ss / 2) t 0 = 90)).
Proof.
  intros MK R10 Rab Hx Ne Sz Hi Pal E.
  pose proof (repair_all_run a c cos_sin dist MK R10 Rab Hx ss Ne Sz Hi Pal fuel m) as H. rewrite E in H. exact H.
Qed.
Print Assumptions C55_abdalla_repair.

(** it raises nothing *)
Theorem C55_no_exception a c cos_sin dist fuel ss m e :
  mk_cons a = Ok c -> rule_10_percent c = true -> rule_10_Abdalla c = true ->
  (forall x y, (forall i, x i == y i)%Q -> (dist x == dist y)%Q) ->
  ss <> [] -> Z.of_nat (length ss) <= 6666 -> Forall (fun x => In x (set_of_angles c)) ss -> (sym c = true -> ss = rev ss) ->
  repair_10_bal_all c cos_sin dist fuel ss m = Err e -> e = OutOfFuel.
Proof.
  intros MK R10 Rab Hx Ne Sz Hi Pal E.
  pose proof (repair_all_run a c cos_sin dist MK R10 Rab Hx ss Ne Sz Hi Pal fuel m) as H. rewrite E in H. exact H.
Qed.
Print Assumptions C55_no_exception.

Lemma fills_in (S : list Z) sy s q t : Forall (fun x => x = 666 \/ In x S) s -> Forall (fun x => In x S) q ->
  fills sy s q t -> (sy = true -> Nat.odd (length s) = true -> nth (length s / 2) s 0 <> 666) -> Forall (fun x => In x S) t.
Proof.
  intros Hs Hq (L & Kn & Sy & P) M. set (k := if sy then (length s / 2)%nat else length s) in *.
  rewrite Forall_forall in Hs, Hq.
  assert (Low : forall i, (i < k)%nat -> (i < length s)%nat -> In (nth i t 0) S).
  { intros i Hk Hi. destruct (Z.eq_dec (nth i s 0) 666) as [E|N].
    - apply Hq. rewrite P. apply in_map_iff. exists i. split; [reflexivity|]. apply filter_In. split; [apply in_seq; lia|]. apply Z.eqb_eq, E.
    - rewrite Kn by assumption. destruct (Hs (nth i s 0)); [apply nth_In, Hi|contradiction|assumption]. }
  apply Forall_forall. intros x Hx. destruct (In_nth _ _ 0 Hx) as [i [Hi <-]]. rewrite L in Hi.
  destruct (Nat.ltb_spec i k) as [H|H]; [apply Low; assumption|].
  destruct sy; [|unfold k in H; lia]. unfold k in *.
  pose proof (Nat.div_mod (length s) 2 ltac:(lia)) as D. pose proof (Nat.mod_upper_bound (length s) 2 ltac:(lia)) as D2.
  destruct (Nat.ltb_spec (length s - 1 - i) (length s / 2)) as [H'|H'].
  - rewrite (Sy eq_refl), rev_nth by lia. rewrite L. replace (length s - Datatypes.S i)%nat with (length s - 1 - i)%nat by lia. apply Low; [exact H'|lia].
  - assert (i = length s / 2)%nat as -> by lia.
    assert (Nat.odd (length s) = true) as O by (apply Nat.odd_spec; exists (length s / 2)%nat; lia).
    rewrite Kn by auto. destruct (Hs (nth (length s / 2) s 0)); [apply nth_In, Hi| |assumption]. exfalso. apply (M eq_refl O). assumption.
Qed.

(** the repair runs forever when no laminate of the size is near the region *)
Theorem C55_runs_forever a c cos_sin dist ss :
  mk_cons a = Ok c -> rule_10_percent c = true -> rule_10_Abdalla c = true ->
  (forall x y, (forall i, x i == y i)%Q -> (dist x == dist y)%Q) ->
  ss <> [] -> Z.of_nat (length ss) <= 6666 -> Forall (fun x => In x (set_of_angles c)) ss -> (sym c = true -> ss = rev ss) ->
  (forall t, length t = length ss -> Forall (fun x => In x (set_of_angles c)) t -> (sym c = true -> t = rev t) -> (bal c = true -> balanced t) ->
     (1 # 10000000000 < dist (in_plane cos_sin t))%Q) ->
  forall fuel m, repair_10_bal_all c cos_sin dist fuel ss m = Err OutOfFuel.
Proof.
  intros MK R10 Rab Hx Ne Sz Hi Pal Far fuel m.
  destruct (repair_10_bal_all c cos_sin dist fuel ss m) as [[s' q]|e] eqn:E.
  - exfalso. destruct (C55_abdalla_repair a c cos_sin dist fuel ss m s' q MK R10 Rab Hx Ne Sz Hi Pal E) as (L & P & A1 & A2 & _ & [t Ft] & All).
    destruct (All t Ft) as (D & B & Mt).
    assert (Fin : Forall (fun x => In x (set_of_angles c)) t).
    { (* the middle ply of the result is known: it is a ply of every filling *)
      destruct (All t Ft) as (_ & _ & Mid).
      pose proof Ft as (Lt & Kn & Sy & Pm).
      destruct (sym c) eqn:Es.
      - destruct (Nat.odd (length ss)) eqn:O.
        + (* the middle ply is 0 or 90 *)
          pose proof (mk_cons_consistent _ _ MK) as K. destruct (k_set _ K) as [_ [_ [_ [_ H10]]]]. destruct (H10 R10) as (S0 & _ & S90 & _).
          assert (Mz : nth (length ss / 2) s' 0 <> 666 \/ nth (length ss / 2) s' 0 = 666) by (destruct (Z.eq_dec (nth (length ss / 2) s' 0) 666); auto).
          destruct Mz as [Mz|Mz].
          * apply (fills_in _ true s' q); auto; rewrite L; auto.
          * (* not known: any angle fills it, a contradiction is not needed *)
            specialize (Mid eq_refl eq_refl).
            assert (F2 : fills true (upd (length ss / 2) (nth (length ss / 2) t 0) s') q t).
            { split; [rewrite upd_length; exact Lt|]. rewrite upd_length, L. split; [|split; [exact Sy|]].
              - intros i Hi' Nz'. rewrite nth_upd in *. destruct (Nat.eqb_spec (length ss / 2) i) as [<-|]; cbn [andb] in *; [|apply Kn; [rewrite L; exact Hi'|exact Nz']].
                destruct (Nat.ltb_spec (length ss / 2) (length s')); [reflexivity|apply Kn; [rewrite L; exact Hi'|exact Nz']].
              - rewrite Pm, L. match goal with |- Permutation ?x ?y => replace y with x; [reflexivity|] end. f_equal.
                apply filter_ext_in. intros i Hi'. apply in_seq in Hi'. rewrite nth_upd. destruct (Nat.eqb_spec (length ss / 2) i); [lia|reflexivity]. }
            assert (Hh : (length ss / 2 < length ss)%nat) by (apply Nat.div_lt; [destruct ss; [congruence|cbn; lia]|lia]).
            apply (fills_in _ true (upd (length ss / 2) (nth (length ss / 2) t 0) s') q); auto.
            -- rewrite Forall_forall in *. intros x Hx'. destruct (In_nth _ _ 0 Hx') as [i [Hi' <-]]. rewrite upd_length in Hi'. rewrite nth_upd.
               destruct (_ && _)%bool; [right; destruct Mid as [->| ->]; assumption|apply A1, nth_In, Hi'].
            -- rewrite upd_length, L. intros _ _. rewrite nth_upd, Nat.eqb_refl, L. destruct (Nat.ltb_spec (length ss / 2) (length ss)); [|lia]. cbn [andb]. destruct Mid as [->| ->]; lia.
        + apply (fills_in _ true s' q); auto; rewrite L; congruence.
      - apply (fills_in _ false s' q); auto; discriminate. }
    assert (Lt : length t = length ss) by (destruct Ft as (Lt & _); congruence).
    specialize (Far t Lt Fin ltac:(apply Ft) B). apply Qlt_not_le in Far. contradiction.
  - f_equal. apply (C55_no_exception a c cos_sin dist fuel ss m e MK R10 Rab Hx Ne Sz Hi Pal E).
Qed.
Print Assumptions C55_runs_forever.

Lemma filter_none {A} (f : A -> bool) l : (forall x, In x l -> f x = false) -> filter f l = [].
Proof. induction l as [|x l IH]; intros H; [reflexivity|]. cbn. rewrite (H x) by now left. apply IH. intros; apply H; now right. Qed.

(** a laminate that meets balance and the rule is returned as it is *)
Theorem C55_conforming_unchanged a c cos_sin dist fuel ss m :
  mk_cons a = Ok c -> rule_10_percent c = true -> rule_10_Abdalla c = true ->
  (forall x y, (forall i, x i == y i)%Q -> (dist x == dist y)%Q) -> (forall x, 0 <= dist x)%Q ->
  ss <> [] -> Z.of_nat (length ss) <= 6666 -> Forall (fun x => In x (set_of_angles c)) ss ->
  (sym c = true -> ss = rev ss /\ Nat.even (length ss) = true) -> (bal c = true -> balanced ss) ->
  (dist (in_plane cos_sin ss) == 0)%Q ->
  repair_10_bal_all c cos_sin dist fuel ss m = Ok (ss, []).
Proof.
  intros MK R10 Rab Hx Dp Ne Sz Hi Pal Bal D0.
  pose proof (mk_cons_consistent _ _ MK) as K. destruct (k_set _ K) as [Nd [Ok [Hneg [_ H10]]]]. destruct (H10 R10) as (S0 & S45 & S90 & Sm45).
  rewrite Forall_forall in Ok. unfold angle_ok in Ok.
  assert (Ok0 : Forall angle_ok ss) by (rewrite Forall_forall in *; intros x X; apply Ok, Hi, X).
  assert (Nz : (1 <= length ss)%nat) by (destruct ss; [congruence|cbn; lia]).
  assert (Ten : ten_spec 0 false false c ss).
  { destruct (k_pct_off _ K (or_intror Rab)) as (Z1 & Z2 & Z3 & Z4 & Z5 & _).
    assert (Sh : forall x, (0 <= share_of x ss)%Q).
    { intros x. unfold share_of. apply Qle_shift_div_l; [change 0%Q with (inject_Z 0); rewrite <- Zlt_Qlt; lia|]. rewrite Qmult_0_l. change 0%Q with (inject_Z 0); rewrite <- Zle_Qle; lia. }
    unfold ten_spec. rewrite Z1, Z2, Z3, Z4, Z5. pose proof (Sh 0); pose proof (Sh 90); pose proof (Sh 45); pose proof (Sh (-45)).
    repeat split; intros; try discriminate; lra. }
  assert (Hno : forall i, (i < length ss)%nat -> nth i ss 0 <> 666).
  { intros i Hi'. rewrite Forall_forall in Ok0. specialize (Ok0 (nth i ss 0) (nth_In _ _ Hi')). unfold angle_ok in Ok0. lia. }
  assert (F : fills (sym c) ss [] ss).
  { split; [reflexivity|]. split; [reflexivity|]. split; [intros E; apply (Pal E)|].
    assert (filter (fun i => nth i ss 0 =? 666) (seq 0 (if sym c then length ss / 2 else length ss)%nat) = []) as ->; [|constructor].
    apply filter_none. intros i Hi'. apply in_seq in Hi'. apply Z.eqb_neq, Hno. pose proof (Nat.div_le_upper_bound (length ss) 2 (length ss)). destruct (sym c); lia. }
  unfold repair_10_bal_all. rewrite R10, Rab; cbn [andb negb].
  rewrite (conforming_2 a c ss MK Ne Ok0 Pal ltac:(rewrite (k_ipo _ K); exact Bal) Ten).
  assert (Hss : forall i, (i < length ss)%nat -> nth i ss 0 = 666 \/ In (nth i ss 0) (set_of_angles c)) by (intros i X; right; rewrite Forall_forall in Hi; apply Hi, nth_In, X).
  assert (Hmid : sym c = true -> Nat.odd (length ss) = true -> nth (length ss / 2) ss 0 <> 666) by (intros _ _; apply Hno, Nat.div_lt; lia).
  destruct (start_dist_ok c cos_sin dist Nd Ok ss [] Sz ltac:(intros X; apply (Pal X)) Hss ltac:(intros x []) Hmid) as [st [E [[Hh _] [E1 [E2 E3]]]]].
  assert (O0 : (m_obj st == 0)%Q).
  { rewrite E3. rewrite (Hx _ _ (h_lp _ _ _ _ _ _ Hh)), E1, E2. rewrite (Hx _ (in_plane cos_sin ss)); [exact D0|].
    intros i. symmetry. apply fills_lampam; auto. }
  assert (Stop : forall mm opts step fuel tab, approach mm opts step fuel tab st = Base.Ok st).
  { intros mm opts step f tab. destruct f; cbn [approach]; destruct (Qltb em10 (m_obj st)) eqn:G; try reflexivity;
      apply Qltb_true in G; rewrite O0 in G; discriminate G. }
  assert (No : forall sh x y k, exchange c dist sh x y k st = Base.Ok None).
  { intros sh x y k. unfold exchange. destruct (nth k (m_ind st) []); [reflexivity|]. destruct (Qltb _ _) eqn:G; [|reflexivity].
    apply Qltb_true in G. rewrite O0 in G. pose proof (Dp (vadd (m_lp st) sh)). revert G; unfold em20; lra. }
  destruct (bal c).
  - unfold repair_10_Abdalla_ipo. rewrite E; cbn [bind]. rewrite Stop; cbn [bind].
    destruct (index_pos_in c 0) as [i0 ->]; [unfold pos_angles; rewrite uniq_in, in_map_iff; exists 0; auto|].
    destruct (index_pos_in c 90) as [i90 ->]; [unfold pos_angles; rewrite uniq_in, in_map_iff; exists 90; auto|]. cbn [bind].
    destruct (In_nth_error _ _ S0) as [k0 E0]. destruct (In_nth_error _ _ S90) as [k90 E90].
    rewrite (proj2 (lookup_ok c Nd 0 k0 ltac:(lia)) E0), (proj2 (lookup_ok c Nd 90 k90 ltac:(lia)) E90); cbn [bind].
    rewrite !No; cbn [bind]. rewrite E1, E2. reflexivity.
  - unfold repair_10_Abdalla_no_ipo. rewrite E; cbn [bind]. rewrite Stop; cbn [bind]. rewrite E1, E2. reflexivity.
Qed.
Print Assumptions C55_conforming_unchanged.

(* ------------------------------------------------------------------ *)
(** ** C56: the distance *)
Lemma qmin2_le x y : (qmin2 x y <= x)%Q /\ (qmin2 x y <= y)%Q.
Proof. unfold qmin2. destruct (Qltb y x) eqn:E; [apply Qltb_true in E|apply Qltb_false in E]; lra. Qed.
Lemma qmin2_ge b x y : (b <= x)%Q -> (b <= y)%Q -> (b <= qmin2 x y)%Q.
Proof. unfold qmin2. destruct (Qltb y x); auto. Qed.
Lemma qmin_le l x : In x l -> (qmin l <= x)%Q.
Proof.
  destruct l as [|a l]; [intros []|]. cbn [qmin].
  assert (G : forall l a, (fold_left qmin2 l a <= a)%Q /\ forall x, In x l -> (fold_left qmin2 l a <= x)%Q).
  { clear. induction l as [|b l IH]; intros a; cbn [fold_left]; [split; [apply Qle_refl|intros x []]|].
    destruct (IH (qmin2 a b)) as [H1 H2]. destruct (qmin2_le a b) as [H3 H4]. split; [lra|].
    intros x [<-|Hx]; [lra|auto]. }
  intros [E|H]; [subst; apply (proj1 (G l x))|apply (proj2 (G l a) x H)].
Qed.
Lemma qmin_ge b l : l <> [] -> (forall x, In x l -> (b <= x)%Q) -> (b <= qmin l)%Q.
Proof.
  destruct l as [|a l]; [congruence|]. cbn [qmin]. intros _ H.
  assert (G : forall l a, (b <= a)%Q -> (forall x, In x l -> (b <= x)%Q) -> (b <= fold_left qmin2 l a)%Q).
  { clear. induction l as [|y l IH]; intros a Ha Hl; cbn [fold_left]; [exact Ha|]. apply IH; [apply qmin2_ge; [exact Ha|apply Hl; now left]|intros; apply Hl; now right]. }
  apply G; [apply H; now left|intros; apply H; now right].
Qed.

(** the sampled abscissae lie between -r and r; the last one is r *)
Lemma linspace_range r num p : (0 <= r)%Q -> (2 <= num)%nat -> In p (linspace r num) -> (- r <= p <= r)%Q.
Proof.
  intros Hr Hn Hp. unfold linspace in Hp. apply in_map_iff in Hp. destruct Hp as [i [<- Hi]]. apply in_seq in Hi.
  assert (P : (0 < inject_Z (Z.of_nat num - 1))%Q) by (change 0%Q with (inject_Z 0); rewrite <- Zlt_Qlt; lia).
  assert (I0 : (0 <= inject_Z (Z.of_nat i))%Q) by (change 0%Q with (inject_Z 0); rewrite <- Zle_Qle; lia).
  assert (I1 : (inject_Z (Z.of_nat i) <= inject_Z (Z.of_nat num - 1))%Q) by (rewrite <- Zle_Qle; lia).
  set (N := inject_Z (Z.of_nat num - 1)) in *. set (k := inject_Z (Z.of_nat i)) in *.
  assert (E : (k * (2 * r / N) == 2 * r * (k / N))%Q) by (field; intros X; rewrite X in P; discriminate P).
  assert (B0 : (0 <= k / N)%Q) by (apply Qle_shift_div_l; [exact P|lra]).
  assert (B1 : (k / N <= 1)%Q) by (apply Qle_shift_div_r; [exact P|lra]).
  rewrite E. nra.
Qed.
Lemma linspace_last r num : (2 <= num)%nat -> exists p, In p (linspace r num) /\ (p == r)%Q.
Proof.
  intros Hn. exists (- r + inject_Z (Z.of_nat (num - 1)) * (2 * r / inject_Z (Z.of_nat num - 1)))%Q. split.
  - unfold linspace. apply in_map_iff. exists (num - 1)%nat. split; [reflexivity|]. apply in_seq. lia.
  - replace (Z.of_nat (num - 1)) with (Z.of_nat num - 1) by lia.
    assert (P : (0 < inject_Z (Z.of_nat num - 1))%Q) by (change 0%Q with (inject_Z 0); rewrite <- Zlt_Qlt; lia).
    field. intros X. rewrite X in P. discriminate P.
Qed.
Lemma linspace_ne r num : (2 <= num)%nat -> linspace r num <> [].
Proof. destruct num; [lia|]. discriminate. Qed.

Lemma square_pos (x : Q) : (0 <= x * x)%Q.
Proof. destruct (Qlt_le_dec x 0); nra. Qed.

(** the square of a distance: there is one exactly when the rule is on, and it is not
    negative *)
Theorem C56_distance_defined c r num x : (2 <= num)%nat ->
  (rule_10_percent c = true /\ rule_10_Abdalla c = true <-> exists d, calc_distance2_Abdalla c r num x = Some d) /\
  (forall d, calc_distance2_Abdalla c r num x = Some d -> (0 <= d)%Q).
Proof.
  intros Hn. unfold calc_distance2_Abdalla. destruct (rule_10_percent c), (rule_10_Abdalla c); cbn [andb].
  2,3,4: split; [split; [intros [? ?]; discriminate|intros [d Hd]; discriminate]|discriminate].
  split; [split; [intros _|auto]|].
  - destruct (abdalla_inside c x); eauto.
  - destruct (abdalla_inside c x); intros d E; [injection E as <-; apply Qle_refl|].
    match type of E with Some ?e = _ => assert (d = e) as -> by congruence end.
    assert (G : forall f, (0 <= qmin (map (fun p => dist2_points (x 0%nat) (x 1%nat) p (f p)) (linspace r num)))%Q).
    { intros f. apply qmin_ge; [intros X; apply map_eq_nil in X; revert X; apply linspace_ne, Hn|].
      intros y Hy. apply in_map_iff in Hy. destruct Hy as [p [<- _]]. unfold dist2_points. pose proof (square_pos (x 0%nat - p)). pose proof (square_pos (x 1%nat - f p)). lra. }
    apply qmin2_ge; apply G.
Qed.
Print Assumptions C56_distance_defined.

(** the region of the rule: the lamination parameters V1, V3 of a laminate that has a share
    p of plies at 0, 90, 45 and -45 each, and a laminate of any angles for the rest *)
Definition region (p V1 V3 : Q) : Prop :=
  let k := (1 - 4 * p)%Q in (2 * (V1 * V1) <= k * (k + V3) /\ V3 <= k)%Q.

(** a point of the region is at distance 0 *)
Theorem C56_region_distance_0 c r num x : rule_10_percent c = true -> rule_10_Abdalla c = true ->
  region (percent_Abdalla c) (x 0%nat) (x 1%nat) -> calc_distance2_Abdalla c r num x = Some 0%Q.
Proof.
  intros R1 R2 [H1 H2]. unfold calc_distance2_Abdalla. rewrite R1, R2; cbn [andb].
  assert (abdalla_inside c x = true) as ->; [|reflexivity].
  unfold abdalla_inside, abdalla_k. fold (abdalla_k c) in *. unfold abdalla_k in *.
  apply andb_true_iff. split; apply Qltb_true; unfold em15.
  - assert ((1 - 4 * percent_Abdalla c) * (1 - 4 * percent_Abdalla c) + (1 - 4 * percent_Abdalla c) * x 1%nat == (1 - 4 * percent_Abdalla c) * ((1 - 4 * percent_Abdalla c) + x 1%nat))%Q as -> by ring. lra.
  - lra.
Qed.
Print Assumptions C56_region_distance_0.

(* weighted means: (sum w x)^2 <= (sum w) (sum w x^2) *)
Lemma cauchy (l : list (Q * Q)) : (forall w x, In (w, x) l -> (0 <= w)%Q) ->
  let W := sumQ (map fst l) in let A := sumQ (map (fun p => fst p * snd p)%Q l) in let B := sumQ (map (fun p => fst p * (snd p * snd p))%Q l) in
  (0 <= W /\ 0 <= B /\ A * A <= W * B)%Q.
Proof.
  induction l as [|[w x] l IH]; intros H; cbv zeta; cbn [map].
  - change (sumQ []) with 0%Q. lra.
  - specialize (IH (fun w x X => H w x (or_intror X))). cbv zeta in IH.
    set (W := sumQ (map fst l)) in *. set (A := sumQ (map (fun p => fst p * snd p)%Q l)) in *. set (B := sumQ (map (fun p => fst p * (snd p * snd p))%Q l)) in *.
    destruct IH as [I1 [I2 I3]]. pose proof (H w x (or_introl eq_refl)) as Hw. cbn [fst snd].
    change (sumQ (w :: map fst l)) with (w + W)%Q.
    change (sumQ ((w * x)%Q :: map (fun p => (fst p * snd p)%Q) l)) with (w * x + A)%Q.
    change (sumQ ((w * (x * x))%Q :: map (fun p => (fst p * (snd p * snd p))%Q) l)) with (w * (x * x) + B)%Q.
    pose proof (square_pos x) as Sx. assert (P1 : (0 <= w * (x * x))%Q) by (apply Qmult_le_0_compat; assumption).
    split; [lra|]. split; [lra|].
    assert (G : (0 <= W * (x * x) + B - 2 * (A * x))%Q).
    { destruct (Qlt_le_dec 0 W) as [Wp|Wz].
      - apply Qnot_lt_le. intros N.
        assert (X : (W * (W * (x * x) + B - 2 * (A * x)) < 0)%Q). { setoid_replace 0%Q with (W * 0)%Q by ring. apply Qmult_lt_l; assumption. }
        pose proof (square_pos (W * x - A)). nra.
      - assert (W0 : (W == 0)%Q) by lra. rewrite W0 in I3 |- *.
        assert (A0 : (A == 0)%Q). { destruct (Qlt_le_dec A 0); [nra|]. destruct (Qlt_le_dec 0 A); [nra|lra]. }
        rewrite A0. lra. }
    assert (X : (0 <= w * (W * (x * x) + B - 2 * (A * x)))%Q) by (apply Qmult_le_0_compat; assumption).
    nra.
Qed.

(** a trigonometric table: cos 4x = 2 cos^2 2x - 1, |cos 2x| <= 1, and the values at the
    four directions of the rule *)
Record double_angle (cos_sin : Z -> nat -> Q) : Prop := {
  da_double : forall a, (cos_sin a 1%nat == 2 * (cos_sin a 0%nat * cos_sin a 0%nat) - 1)%Q;
  da_bound : forall a, (-1 <= cos_sin a 0%nat <= 1)%Q;
  da_0 : (cos_sin 0%Z 0%nat == 1)%Q; da_90 : (cos_sin 90%Z 0%nat == -1)%Q;
  da_45 : (cos_sin 45%Z 0%nat == 0)%Q; da_m45 : (cos_sin (-45)%Z 0%nat == 0)%Q }.

Definition is_main (a : Z) : bool := ((a =? 0) || (a =? 90) || (a =? 45) || (a =? -45))%bool.
Definition occQ (a : Z) (t : list Z) : Q := inject_Z (Z.of_nat (count_occ Z.eq_dec t a)).
Lemma split_main (f : Z -> Q) t :
  (sumQ (map f t) == occQ 0%Z t * f 0%Z + occQ 90%Z t * f 90%Z + occQ 45%Z t * f 45%Z + occQ (-45)%Z t * f (-45)%Z
     + sumQ (map f (filter (fun a => negb (is_main a)) t)))%Q.
Proof.
  induction t as [|a t IH]; [unfold occQ; change (sumQ (map f [])) with 0%Q; cbn; ring|].
  cbn [map]. change (sumQ (f a :: map f t)) with (f a + sumQ (map f t))%Q. rewrite IH; clear IH. cbn [filter].
  assert (St : forall b, (occQ b (a :: t) == (if Z.eq_dec a b then 1 else 0) + occQ b t)%Q).
  { intros b. unfold occQ. cbn [count_occ]. destruct (Z.eq_dec a b); [|ring]. rewrite Nat2Z.inj_succ. unfold Z.succ. rewrite inject_Z_plus. ring. }
  rewrite !St. unfold is_main.
  destruct (Z.eqb_spec a 0) as [->|N0]; [|destruct (Z.eqb_spec a 90) as [->|N90]; [|destruct (Z.eqb_spec a 45) as [->|N45]; [|destruct (Z.eqb_spec a (-45)) as [->|Nm]]]]; cbn [orb negb].
  all: repeat match goal with |- context [Z.eq_dec ?x ?y] => destruct (Z.eq_dec x y); try congruence; try discriminate end.
  all: cbn [map]; try change (sumQ (f a :: ?l)) with (f a + sumQ l)%Q; ring.
Qed.

Lemma sumq_cons x l : sumQ (x :: l) = (x + sumQ l)%Q.
Proof. reflexivity. Qed.
Lemma sum_le {A} (f g : A -> Q) l : (forall x, In x l -> (f x <= g x)%Q) -> (sumQ (map f l) <= sumQ (map g l))%Q.
Proof.
  induction l as [|x l IH]; intros H; [apply Qle_refl|]. cbn [map]. rewrite !sumq_cons.
  pose proof (H x (or_introl eq_refl)). specialize (IH (fun y Y => H y (or_intror Y))). lra.
Qed.
Lemma sum_lin {A} (k m : Q) (f g : A -> Q) l : (sumQ (map (fun x => k * f x + m * g x)%Q l) == k * sumQ (map f l) + m * sumQ (map g l))%Q.
Proof.
  induction l as [|x l IH]; [change (sumQ (map ?h [])) with 0%Q; ring|]. cbn [map]. rewrite !sumq_cons. rewrite IH. ring.
Qed.
Lemma sum_eq {A} (f g : A -> Q) l : (forall x, In x l -> (f x == g x)%Q) -> (sumQ (map f l) == sumQ (map g l))%Q.
Proof. intros H. apply Qle_antisym; apply sum_le; intros x X; rewrite (H x X); apply Qle_refl. Qed.

(** a laminate that has the share of the rule at 0, 90, 45 and -45 lies in the region, so
    its distance is 0 *)
Theorem C56_ply_shares_distance_0 c cos_sin r num t : rule_10_percent c = true -> rule_10_Abdalla c = true -> double_angle cos_sin ->
  t <> [] -> (forall a, In a [0; 90; 45; -45] -> (percent_Abdalla c <= share_of a t)%Q) ->
  calc_distance2_Abdalla c r num (in_plane cos_sin t) = Some 0%Q.
Proof.
  intros R1 R2 DA Ne Sh. apply C56_region_distance_0; auto. set (p := percent_Abdalla c) in *.
  set (n := inject_Z (Z.of_nat (length t))).
  assert (Pn : (0 < n)%Q) by (unfold n; change 0%Q with (inject_Z 0); rewrite <- Zlt_Qlt; destruct t; [congruence|cbn; lia]).
  assert (Nn : ~ (n == 0)%Q) by lra.
  set (o := filter (fun a => negb (is_main a)) t).
  set (l := [((share_of 0%Z t - p)%Q, 1%Q); ((share_of 90%Z t - p)%Q, (-1)%Q); ((share_of 45%Z t - p)%Q, 0%Q); ((share_of (-45)%Z t - p)%Q, 0%Q)]
            ++ map (fun a => ((1 / n)%Q, cos_sin a 0%nat)) o).
  assert (In_n : (0 <= 1 / n)%Q) by (apply Qle_shift_div_l; [exact Pn|lra]).
  assert (Nw : forall w x, In (w, x) l -> (0 <= w /\ -1 <= x <= 1)%Q).
  { intros w x H. unfold l in H. apply in_app_or in H. destruct H as [H|H].
    - pose proof (Sh 0 ltac:(cbn; auto)). pose proof (Sh 90 ltac:(cbn; auto)). pose proof (Sh 45 ltac:(cbn; auto)). pose proof (Sh (-45) ltac:(cbn; auto)).
      destruct H as [H|[H|[H|[H|[]]]]]; injection H as <- <-; lra.
    - apply in_map_iff in H. destruct H as [a [H _]]. injection H as <- <-. split; [exact In_n|apply (da_bound _ DA)]. }
  pose proof (cauchy l (fun w x H => proj1 (Nw w x H))) as C. cbv zeta in C.
  assert (Ex : forall F : Q * Q -> Q, (sumQ (map F l) == F ((share_of 0%Z t - p)%Q, 1%Q) + F ((share_of 90%Z t - p)%Q, (-1)%Q) + F ((share_of 45%Z t - p)%Q, 0%Q) + F ((share_of (-45)%Z t - p)%Q, 0%Q)
      + sumQ (map (fun a => F ((1 / n)%Q, cos_sin a 0%nat)) o))%Q).
  { intros F. unfold l. cbn [app map]. rewrite map_map. rewrite !sumq_cons. ring. }
  assert (Sn : forall f, (sumQ (map f t) / n == share_of 0%Z t * f 0%Z + share_of 90%Z t * f 90%Z + share_of 45%Z t * f 45%Z + share_of (-45)%Z t * f (-45)%Z + (1 / n) * sumQ (map f o))%Q).
  { intros f. rewrite split_main. unfold share_of. fold n. fold (occQ 0%Z t) (occQ 90%Z t) (occQ 45%Z t) (occQ (-45)%Z t). fold o. field. exact Nn. }
  assert (Sc : forall f : Z -> Q, (sumQ (map (fun a => (1 / n) * f a)%Q o) == (1 / n) * sumQ (map f o))%Q).
  { intros f. rewrite (sum_eq _ (fun a => (1 / n) * f a + 0 * f a)%Q) by (intros; ring). rewrite sum_lin. ring. }
  assert (One : (sumQ (map (fun _ => 1%Q) t) / n == 1)%Q).
  { assert (sumQ (map (fun _ : Z => 1%Q) t) == n)%Q as ->; [|field; exact Nn]. unfold n. clear. induction t as [|a t IH]; [reflexivity|].
    cbn [map length]. rewrite !sumq_cons. rewrite IH, Nat2Z.inj_succ. unfold Z.succ. rewrite inject_Z_plus. ring. }
  rewrite Sn in One.
  assert (EW : (sumQ (map fst l) == 1 - 4 * p)%Q).
  { rewrite Ex. cbn [fst]. rewrite (sum_eq (fun _ : Z => (1 / n)%Q) (fun _ => (1 / n) * 1)%Q) by (intros; ring). rewrite (Sc (fun _ => 1%Q)). set (Z1 := (1 / n * sumQ (map (fun _ : Z => 1%Q) o))%Q) in *. lra. }
  assert (EA : (sumQ (map (fun q => fst q * snd q)%Q l) == in_plane cos_sin t 0%nat)%Q).
  { rewrite Ex. cbn [fst snd]. rewrite (Sc (fun a => cos_sin a 0%nat)). unfold in_plane. fold n. rewrite Sn, (da_0 _ DA), (da_90 _ DA), (da_45 _ DA), (da_m45 _ DA). ring. }
  assert (EB : (in_plane cos_sin t 1%nat == 2 * sumQ (map (fun q => fst q * (snd q * snd q))%Q l) - (1 - 4 * p))%Q).
  { rewrite Ex. cbn [fst snd]. rewrite (Sc (fun a => cos_sin a 0%nat * cos_sin a 0%nat)%Q). unfold in_plane. fold n. rewrite Sn, !(da_double _ DA), (da_0 _ DA), (da_90 _ DA), (da_45 _ DA), (da_m45 _ DA).
    rewrite (sum_eq (fun a => cos_sin a 1%nat) (fun a => 2 * (cos_sin a 0%nat * cos_sin a 0%nat) + (-1) * 1)%Q) by (intros; rewrite (da_double _ DA); ring).
    rewrite (sum_lin 2 (-1) (fun a => cos_sin a 0%nat * cos_sin a 0%nat)%Q (fun _ => 1%Q)).
    setoid_replace (1 - 4 * p)%Q with ((share_of 0%Z t * 1 + share_of 90%Z t * 1 + share_of 45%Z t * 1 + share_of (-45)%Z t * 1 + (1 / n) * sumQ (map (fun _ : Z => 1%Q) o)) - 4 * p)%Q by (rewrite One; reflexivity).
    ring. }
  assert (LB : (sumQ (map (fun q => fst q * (snd q * snd q))%Q l) <= sumQ (map fst l))%Q).
  { apply sum_le. intros [w x] H. cbn [fst snd]. destruct (Nw w x H) as [W X]. assert (x * x <= 1)%Q by nra. pose proof (square_pos x). nra. }
  rewrite EW, EA in C. destruct C as (C1 & C2 & C3). rewrite EW in LB. unfold region. cbv zeta. rewrite EB. split; [|lra].
  setoid_replace ((1 - 4 * p) * ((1 - 4 * p) + (2 * sumQ (map (fun q => fst q * (snd q * snd q))%Q l) - (1 - 4 * p))))%Q
    with (2 * ((1 - 4 * p) * sumQ (map (fun q => fst q * (snd q * snd q))%Q l)))%Q by ring. lra.
Qed.
Print Assumptions C56_ply_shares_distance_0.

(* ------------------------------------------------------------------ *)
(** ** The distance is not the distance to the region *)
(** the rule at 9%: k = 0.64, whose square root is 0.8 *)
Definition args_9 : cargs := {|
  a_sym := true; a_bal := true; a_oopo := false; a_dam_tol := false;
  a_rule_10_percent := true; a_rule_10_Abdalla := true; a_percent_Abdalla := 9;
  a_combine_45_135 := true; a_calc_combine_45_135 := true;
  a_percent_0 := 0; a_percent_45 := 0; a_percent_90 := 0; a_percent_135 := 0;
  a_percent_45_135 := 0;
  a_diso := false; a_contig := false; a_n_contig := 1; a_delta_angle := 45;
  a_dam_tol_rule := 2; a_set_of_angles := [0; 45; 90; -45]; a_min_drop := 1;
  a_pdl_spacing := false; a_covering := false; a_n_covering := 0 |}.
(** 81% of 0, 1% of 90, 9% of 45 and of -45 *)
Definition one_percent_90 : list Z :=
  let h := repeat 0 81 ++ [90] ++ repeat 45 9 ++ repeat (-45) 9 in h ++ rev h.

Lemma one_percent_lp : (in_plane cos_sin_4 one_percent_90 0%nat == 4 # 5)%Q /\ (in_plane cos_sin_4 one_percent_90 1%nat == 16 # 25)%Q.
Proof. vm_compute. auto. Qed.

(** a laminate with 1% of plies at 90 is outside the region of the rule at 9%, and at
    distance 0 from it: the sampled boundary is too long *)
Theorem C56_zero_outside_refuted c num : mk_cons args_9 = Ok c -> (2 <= num)%nat ->
  (percent_Abdalla c == 9 # 100)%Q /\ ((4 # 5) * (4 # 5) == 1 - 4 * percent_Abdalla c)%Q /\
  (share_of 90 one_percent_90 == 1 # 100)%Q /\
  is_ten_percent_Abdalla c (in_plane cos_sin_4 one_percent_90 0%nat) (in_plane cos_sin_4 one_percent_90 1%nat) = false /\
  ~ region (percent_Abdalla c) (in_plane cos_sin_4 one_percent_90 0%nat) (in_plane cos_sin_4 one_percent_90 1%nat) /\
  exists d, calc_distance2_Abdalla c (4 # 5) num (in_plane cos_sin_4 one_percent_90) = Some d /\ (d == 0)%Q.
Proof.
  intros MK Hn. vm_compute in MK. injection MK as <-. match goal with |- context [percent_Abdalla ?x] => set (c := x) end.
  destruct one_percent_lp as [L1 L3].
  split; [reflexivity|]. split; [reflexivity|]. split; [reflexivity|]. split; [vm_compute; reflexivity|]. split.
  - unfold region. rewrite L1, L3. change (percent_Abdalla c) with (9 # 100)%Q. intros [H _]. revert H. vm_compute. auto.
  - assert (In0 : abdalla_inside c (in_plane cos_sin_4 one_percent_90) = false) by (vm_compute; reflexivity).
    destruct (proj1 (proj1 (C56_distance_defined c (4 # 5) num (in_plane cos_sin_4 one_percent_90) Hn)) (conj eq_refl eq_refl)) as [d Hd].
    pose proof (proj2 (C56_distance_defined c (4 # 5) num (in_plane cos_sin_4 one_percent_90) Hn) d Hd) as P.
    exists d. split; [exact Hd|]. apply Qle_antisym; [|exact P].
    unfold calc_distance2_Abdalla in Hd. change (rule_10_percent c && rule_10_Abdalla c)%bool with true in Hd. rewrite In0 in Hd. cbv iota in Hd.
    match type of Hd with Some ?e = _ => assert (d = e) as -> by congruence end.
    destruct (linspace_last (4 # 5) num Hn) as [p [Hp E]].
    eapply Qle_trans; [apply qmin2_le|]. eapply Qle_trans; [apply qmin_le, in_map_iff; exists p; split; [reflexivity|exact Hp]|].
    unfold dist2_points, line_Abdalla. rewrite L1, L3, E. vm_compute. discriminate.
Qed.
Print Assumptions C56_zero_outside_refuted.

(** a point 0.01 away from the region is reported at more than 0.02 *)
Theorem C56_not_the_distance_refuted c num x : mk_cons args_9 = Ok c -> (2 <= num)%nat ->
  x 0%nat = (32 # 100)%Q -> x 1%nat = (-33 # 100)%Q ->
  region (percent_Abdalla c) (32 # 100) (-32 # 100) /\ (dist2_points (x 0%nat) (x 1%nat) (32 # 100) (-32 # 100) == 1 # 10000)%Q /\
  exists d, calc_distance2_Abdalla c (4 # 5) num x = Some d /\ ((4 # 10000) <= d)%Q.
Proof.
  intros MK Hn X0 X1. vm_compute in MK. injection MK as <-. match goal with |- context [percent_Abdalla ?x] => set (c := x) end.
  split; [split; vm_compute; discriminate|]. split; [unfold dist2_points; rewrite X0, X1; reflexivity|].
  unfold calc_distance2_Abdalla. change (rule_10_percent c && rule_10_Abdalla c)%bool with true.
  assert (abdalla_inside c x = false) as -> by (unfold abdalla_inside; rewrite X0, X1; vm_compute; reflexivity).
  cbv iota zeta. rewrite X0, X1. eexists; split; [reflexivity|].
  assert (Ek : (abdalla_k c == 16 # 25)%Q) by reflexivity.
  apply qmin2_ge; (apply qmin_ge; [intros E; apply map_eq_nil in E; revert E; apply linspace_ne, Hn|]); intros y Hy; apply in_map_iff in Hy; destruct Hy as [p [<- Hp]].
  - unfold dist2_points, parabola_Abdalla. rewrite Ek.
    assert (Ep : (2 * (p / (16 # 25) * (p / (16 # 25))) == (625 # 128) * (p * p))%Q) by field. rewrite Ep.
    pose proof (square_pos ((-33 # 100) - ((625 # 128) * (p * p) - (16 # 25)))) as S2. pose proof (square_pos ((32 # 100) - p)) as S1.
    destruct (Qlt_le_dec p (30 # 100)) as [Lo|Lo]; [|destruct (Qlt_le_dec (34 # 100) p) as [Hi|Hi]].
    + assert (4 # 10000 <= ((32 # 100) - p) * ((32 # 100) - p))%Q by nra. lra.
    + assert (4 # 10000 <= ((32 # 100) - p) * ((32 # 100) - p))%Q by nra. lra.
    + assert (Sq : (9 # 100 <= p * p)%Q) by nra. set (u := (p * p)%Q) in *.
      assert (V : (1 # 10 <= ((625 # 128) * u - (16 # 25)) - (-33 # 100))%Q) by lra. nra.
  - unfold dist2_points, line_Abdalla. rewrite Ek. pose proof (square_pos ((32 # 100) - p)). lra.
Qed.
Print Assumptions C56_not_the_distance_refuted.

(** the repair returns the laminate with 1% of plies at 90 as it is *)
Theorem C55_inadmissible_returned_refuted c num dist : mk_cons args_9 = Ok c -> (2 <= num)%nat ->
  (forall x y, (forall i, x i == y i)%Q -> (dist x == dist y)%Q) -> (forall x, 0 <= dist x)%Q ->
  (forall x d, calc_distance2_Abdalla c (4 # 5) num x = Some d -> (dist x * dist x == d)%Q) ->
  (forall fuel m, repair_10_bal_all c cos_sin_4 dist fuel one_percent_90 m = Ok (one_percent_90, [])) /\
  (share_of 90 one_percent_90 == 1 # 100)%Q /\
  ~ region (percent_Abdalla c) (in_plane cos_sin_4 one_percent_90 0%nat) (in_plane cos_sin_4 one_percent_90 1%nat).
Proof.
  intros MK Hn Hx Hp Hd. destruct (C56_zero_outside_refuted c num MK Hn) as (E1 & E2 & E3 & E4 & E5 & [d [E6 E7]]).
  split; [|split; assumption]. intros fuel m.
  assert (R : rule_10_percent c = true /\ rule_10_Abdalla c = true /\ set_of_angles c = [-45; 0; 45; 90]) by (clear -MK; vm_compute in MK; injection MK as <-; vm_compute; auto).
  destruct R as (R1 & R2 & Rs).
  apply (C55_conforming_unchanged args_9 c); auto; try discriminate.
  - rewrite Rs. assert (G : forallb (fun x => memb x [-45; 0; 45; 90]) one_percent_90 = true) by (vm_compute; reflexivity).
    rewrite Forall_forall. rewrite forallb_forall in G. intros x X. specialize (G x X). unfold memb in G. apply existsb_exists in G. destruct G as [y [Y1 Y2]]. apply Z.eqb_eq in Y2. congruence.
  - intros _ x Hx' Hx''. destruct (Z.eq_dec x 45) as [->|N]; [reflexivity|]. destruct (Z.eq_dec x (-45)) as [->|N']; [reflexivity|].
    assert (G : forallb (fun x => memb x [0; 90; 45; -45]) one_percent_90 = true) by (vm_compute; reflexivity). rewrite forallb_forall in G.
    assert (Ni : forall y, y <> 0 -> y <> 90 -> y <> 45 -> y <> -45 -> ~ In y one_percent_90).
    { intros y A1 A2 A3 A4 X. specialize (G y X). cbn in G. lia. }
    rewrite !(proj1 (count_occ_not_In Z.eq_dec _ _)); [reflexivity| |]; apply Ni; lia.
  - specialize (Hd _ _ E6). rewrite E7 in Hd. destruct (Qlt_le_dec 0 (dist (in_plane cos_sin_4 one_percent_90))) as [P|P]; [nra|]. pose proof (Hp (in_plane cos_sin_4 one_percent_90)). lra.
Qed.
Print Assumptions C55_inadmissible_returned_refuted.

(** the rule at 10% with 0, 45, 90, -45: the repair of a balanced symmetric laminate of four
    plies never ends, whatever the laminate *)
Theorem C55_four_plies_refuted c r num dist ss : mk_cons args_abdalla = Ok c -> (0 <= r <= 4 # 5)%Q -> (2 <= num)%nat ->
  (forall x y, (forall i, x i == y i)%Q -> (dist x == dist y)%Q) ->
  (forall x d, calc_distance2_Abdalla c r num x = Some d -> (1 # 100000000000000000000 < d)%Q -> (1 # 10000000000 < dist x)%Q) ->
  length ss = 4%nat -> Forall (fun x => In x [0; 45; 90; -45]) ss -> ss = rev ss ->
  forall fuel m, repair_10_bal_all c cos_sin_4 dist fuel ss m = Err OutOfFuel.
Proof.
  intros MK Hr Hn Hx Hd L Hin Pal.
  assert (R : rule_10_percent c = true /\ rule_10_Abdalla c = true /\ set_of_angles c = [-45; 0; 45; 90] /\ sym c = true /\ bal c = true /\ (abdalla_k c == 3 # 5)%Q)
    by (clear -MK; vm_compute in MK; injection MK as <-; vm_compute; repeat split; reflexivity).
  destruct R as (R1 & R2 & Rs & Rsy & Rb & Ek).
  assert (Far : forall x, (1 <= x 1%nat /\ (x 0%nat == 1 \/ x 0%nat == -1 \/ x 0%nat == 0) /\ x 1%nat == 1 \/ x 0%nat == 0 /\ x 1%nat == -1)%Q -> (1 # 10000000000 < dist x)%Q).
  { intros x X.
    destruct (proj1 (proj1 (C56_distance_defined c r num x Hn)) (conj R1 R2)) as [d Ed]. apply (Hd x d Ed).
    unfold calc_distance2_Abdalla in Ed. rewrite R1, R2 in Ed. cbn [andb] in Ed.
    assert (In0 : abdalla_inside c x = false).
    { unfold abdalla_inside. apply andb_false_iff. destruct X as [[_ [_ X1]]|[X0 X1]]; [right|left]; apply Qltb_false; unfold em15; rewrite Ek; [lra|rewrite X0, X1; lra]. }
    rewrite In0 in Ed. match type of Ed with Some ?e = _ => assert (d = e) as -> by congruence end.
    apply Qlt_le_trans with (1 # 100)%Q; [reflexivity|].
    apply qmin2_ge; (apply qmin_ge; [intros E; apply map_eq_nil in E; revert E; apply linspace_ne, Hn|]); intros y Hy; apply in_map_iff in Hy; destruct Hy as [p [<- Hp]].
    - apply (linspace_range r num p (proj1 Hr) Hn) in Hp. unfold dist2_points, parabola_Abdalla. rewrite Ek.
      assert (Ep : (2 * (p / (3 # 5) * (p / (3 # 5))) == (50 # 9) * (p * p))%Q) by field. rewrite Ep. clear Ep.
      pose proof (square_pos p) as Sp. pose proof (square_pos (x 1%nat - ((50 # 9) * (p * p) - (3 # 5)))) as S2.
      destruct X as [[_ [[X0|[X0|X0]] X1]]|[X0 X1]]; rewrite X0, X1 in *.
      + assert (1 # 25 <= (1 - p) * (1 - p))%Q by nra. lra.
      + assert (1 # 25 <= (-1 - p) * (-1 - p))%Q by nra. lra.
      + destruct (Qlt_le_dec (9 # 100) (p * p)) as [B|B]; [lra|]. set (u := (p * p)%Q) in *. nra.
      + set (u := (p * p)%Q) in *. assert (2 # 5 <= ((50 # 9) * u - (3 # 5)) - -1)%Q by lra. assert (0 <= (0 - p) * (0 - p))%Q by apply square_pos. nra.
    - unfold dist2_points, line_Abdalla. rewrite Ek. pose proof (square_pos (x 0%nat - p)).
      destruct X as [[_ [_ X1]]|[_ X1]]; rewrite X1; lra. }
  apply (C55_runs_forever args_abdalla c); auto.
  - destruct ss; [discriminate|discriminate].
  - lia.
  - rewrite Rs. eapply Forall_impl; [|exact Hin]. cbn; intuition.
  - intros t Lt Int Palt Balt. apply Far. specialize (Palt Rsy). specialize (Balt Rb). rewrite L in Lt. rewrite Rs in Int. clear -Lt Int Palt Balt.
    destruct t as [|x0 [|x1 [|x2 [|x3 [|]]]]]; try discriminate Lt. cbn in Palt. injection Palt as E1 E2 _ _. subst x3 x2.
    inversion Int as [|? ? I0 Int1]; subst. inversion Int1 as [|? ? I1 _]; subst. clear Int Int1 Lt.
    pose proof (Balt 45 ltac:(lia) ltac:(lia)) as B45. clear Balt.
    cbn in I0, I1. destruct I0 as [<-|[<-|[<-|[<-|[]]]]]; destruct I1 as [<-|[<-|[<-|[<-|[]]]]]; try (exfalso; revert B45; vm_compute; congruence);
      vm_compute; intuition congruence.
Qed.
Print Assumptions C55_four_plies_refuted.

(* ------------------------------------------------------------------ *)
(** ** The hypotheses are met *)
(** the amount by which the two inequalities of the rule at 10% are violated *)
Definition violation (x : vec) : Q :=
  (Qmaxb 0 (2 * (x 0%nat * x 0%nat) - (6 # 10) * ((6 # 10) + x 1%nat)) + Qmaxb 0 (x 1%nat - (6 # 10)))%Q.
Definition zeros_20 : list Z := let h := [0; 0; 45; 0; 0; 0; 0; 0; 0; 0] in h ++ rev h.

Lemma qmaxb_ext x y z : (x == y)%Q -> (Qmaxb z x == Qmaxb z y)%Q.
Proof. intros E. unfold Qmaxb, Constraints.Qltb. destruct (Qle_bool x z) eqn:A, (Qle_bool y z) eqn:B; cbn [negb]; try reflexivity; [|
  |exact E].
  - apply Qle_bool_iff in A. rewrite E in A. apply Qle_bool_iff in A. congruence.
  - apply Qle_bool_iff in B. rewrite <- E in B. apply Qle_bool_iff in B. congruence.
Qed.

(** an unbalanced laminate outside the region is made balanced and brought into the region:
    four plies become 90, one place is left for -45 *)
Example abdalla_example : exists c, mk_cons args_abdalla = Ok c /\ rule_10_percent c = true /\ rule_10_Abdalla c = true /\ bal c = true /\
  (forall x y, (forall i, x i == y i)%Q -> (violation x == violation y)%Q) /\ (forall x, 0 <= violation x)%Q /\
  Forall (fun x => In x (set_of_angles c)) zeros_20 /\ zeros_20 = rev zeros_20 /\ Qltb 0 (violation (in_plane cos_sin_4 zeros_20)) = true /\
  repair_10_bal_all c cos_sin_4 violation 3 zeros_20 zero_mini = Ok (let h := [0; 0; 45; 0; 0; 0; 0; 90; 90; 666] in h ++ rev h, [-45]).
Proof.
  eexists; split; [vm_compute; reflexivity|]. split; [reflexivity|]. split; [reflexivity|]. split; [reflexivity|].
  split. { intros x y H. unfold violation. apply Qplus_comp; apply qmaxb_ext; rewrite !H; reflexivity. }
  split. { intros x. unfold violation, Qmaxb, Constraints.Qltb. destruct (Qle_bool _ _) eqn:A; destruct (Qle_bool (x 1%nat - (6 # 10)) 0) eqn:B; cbn [negb];
    repeat match goal with H : Qle_bool ?x ?y = false |- _ => assert (y < x)%Q by (apply Qnot_le_lt; intros N; apply Qle_bool_iff in N; congruence); clear H end; lra. }
  split. { repeat (constructor; [cbn; tauto|]); constructor. }
  split; [reflexivity|]. split; vm_compute; reflexivity.
Qed.

(** the trigonometric values of the four directions *)
Example double_angle_4 : double_angle cos_sin_4.
Proof.
  constructor; try reflexivity; intros a; unfold cos_sin_4; destruct (Z.eqb_spec a 0), (Z.eqb_spec a 90); try (exfalso; lia); cbn; try lra; split; discriminate.
Qed.
(** a laminate with 10% of each *)
Example shares_example : forall a, In a [0; 90; 45; -45] -> (1 # 10 <= share_of a balanced_20)%Q.
Proof. intros a [<-|[<-|[<-|[<-|[]]]]]; vm_compute; discriminate. Qed.
