(* RepairMpProofs.v - the plies that the repair of the reference panel may use, and the symmetry
   of its result, for every input. *)
From Coq Require Import Lqa Qround Sorted Permutation.
From Verif Require Import Base Uniq Constraints Guidelines SpecGuidelines ConstraintsProofs GateProofs Divers Divide PdlTools
  Spacing Strip Format FormatProofs Search SearchProofs Repair10 Repair10Proofs Properties_repair10 RepairDiso Membrane Abdalla10 Flexural SpecRedesign Redesign RepairMp.
Local Open Scope Z_scope.

Lemma nth_P (P : Z -> Prop) l i : P 0 -> Forall P l -> P (nth i l 0).
Proof. intros P0 H. destruct (nth_in_or_default i l 0) as [I|E]; [|rewrite E; exact P0]. rewrite Forall_forall in H. auto. Qed.
Lemma upd_P (P : Z -> Prop) l i x : P x -> Forall P l -> Forall P (upd i x l).
Proof. intros Px H. revert i. induction H as [|a l Pa H IH]; intros [|i]; cbn; constructor; auto. Qed.
Lemma sub_P (P : Z -> Prop) l m : (forall x, In x m -> In x l) -> Forall P l -> Forall P m.
Proof. rewrite !Forall_forall. auto. Qed.
Lemma firstn_P (P : Z -> Prop) n l : Forall P l -> Forall P (firstn n l).
Proof. apply sub_P. intros x H. rewrite <- (firstn_skipn n l). apply in_or_app. now left. Qed.
Lemma skipn_P (P : Z -> Prop) n l : Forall P l -> Forall P (skipn n l).
Proof. apply sub_P. intros x H. rewrite <- (firstn_skipn n l). apply in_or_app. now right. Qed.
Lemma lastn_P (P : Z -> Prop) n l : Forall P l -> Forall P (lastn n l).
Proof. unfold lastn. apply skipn_P. Qed.
Lemma rev_P (P : Z -> Prop) l : Forall P l -> Forall P (rev l).
Proof. apply sub_P. intros x. rewrite <- in_rev. auto. Qed.
Lemma remove1_sub a l x : In x (remove1 a l) -> In x l.
Proof. induction l as [|b l IH]; cbn; [auto|]. destruct (b =? a); cbn; tauto. Qed.
Lemma remove1_P (P : Z -> Prop) a l : Forall P l -> Forall P (remove1 a l).
Proof. apply sub_P. intros x. apply remove1_sub. Qed.

(* ------------------------------------------------------------------ *)
(** ** disorientation and contiguity *)
Section Diso.
Variable c : cons.
Variable P : Z -> Prop.
Hypothesis P0 : P 0.

Lemma order_sub x q a : In a (order_plies_to_test x q c) -> In a q.
Proof. unfold order_plies_to_test. rewrite filter_In. intros [_ H]. unfold memb in H. apply existsb_exists in H. destruct H as [y [Y E]]. apply Z.eqb_eq in E. congruence. Qed.
Lemma findR_in f l a : findR f l = Ok (Some a) -> In a l.
Proof. induction l as [|b l IH]; cbn; [discriminate|]. destruct (f b) as [[]|]; cbn; intros E; [left; congruence|right; auto|discriminate]. Qed.
Lemma pick_P ss acc cands inds : Forall P ss -> (forall q x, In x (cands q) -> In x q) -> forall q a i q', Forall P q ->
  RepairDiso.pick ss acc cands inds q = Ok (Some (a, i, q')) -> P a /\ Forall P q'.
Proof.
  intros Hs Hc. induction inds as [|j inds IH]; intros q a i q' Hq; cbn [RepairDiso.pick]; [discriminate|].
  destruct (negb (nth j ss 0 =? 666)).
  - destruct (acc (nth j ss 0)) as [[]|]; cbn [bind]; [|apply IH, Hq|discriminate]. intros E. injection E as <- _ <-. split; [apply nth_P; assumption|exact Hq].
  - destruct (findR acc (cands q)) as [[b|]|] eqn:F; cbn [bind]; [|apply IH, Hq|discriminate]. intros E. injection E as <- _ <-.
    split; [|apply remove1_P, Hq]. rewrite Forall_forall in Hq. apply Hq, Hc. eapply findR_in, F.
Qed.
Lemma rest_P ss inds : Forall P ss -> forall q r q', Forall P q -> rest ss inds q = Ok (r, q') -> Forall P r /\ Forall P q'.
Proof.
  intros Hs. induction inds as [|j inds IH]; intros q r q' Hq; cbn [rest].
  - intros E. injection E as <- <-. split; [constructor|exact Hq].
  - destruct (negb (nth j ss 0 =? 666)).
    + destruct (rest ss inds q) as [[r1 q1]|] eqn:R; cbn [bind]; [|discriminate]. intros E. injection E as <- <-. cbn [fst snd].
      destruct (IH q r1 q1 Hq R). split; [constructor; [apply nth_P; assumption|assumption]|assumption].
    + destruct q as [|x q]; [discriminate|]. inversion Hq; subst. destruct (rest ss inds q) as [[r1 q1]|] eqn:R; cbn [bind]; [|discriminate]. intros E. injection E as <- <-. cbn [fst snd].
      destruct (IH q r1 q1); auto.
Qed.
Lemma arranged_P rem p : Forall P rem -> Forall P (arranged rem p).
Proof. intros H. unfold arranged. apply Forall_forall. intros x X. apply in_map_iff in X. destruct X as [i [<- _]]. apply nth_P; assumption. Qed.
Lemma middle_P ss : Forall P ss -> Forall P (middle ss).
Proof. intros H. unfold middle. destruct (Nat.odd _); constructor; [apply nth_P; assumption|constructor]. Qed.
Lemma middle_rev ss : rev (middle ss) = middle ss.
Proof. unfold middle. destruct (Nat.odd _); reflexivity. Qed.
Lemma mirror (h ss : list Z) : h ++ middle ss ++ rev h = rev (h ++ middle ss ++ rev h).
Proof. rewrite !rev_app_distr, rev_involutive, middle_rev, <- app_assoc. reflexivity. Qed.
Lemma mirror_in (a b st : list Z) : st = rev st -> a ++ b ++ st ++ rev b ++ rev a = rev (a ++ b ++ st ++ rev b ++ rev a).
Proof. intros E. rewrite !rev_app_distr, !rev_involutive, <- E, <- !app_assoc. reflexivity. Qed.

Lemma out_loop_P ss : Forall P ss -> forall k st inds q st' inds' q' b, Forall P st -> Forall P q ->
  out_loop c ss k st inds q = Ok (st', inds', q', b) -> Forall P st' /\ Forall P q'.
Proof.
  intros Hs. induction k as [|k IH]; intros st inds q st' inds' q' b Ht Hq; cbn [out_loop].
  - intros E. injection E as <- _ <- _. auto.
  - destruct (RepairDiso.pick _ _ _ _ _) as [[[[a i] q1]|]|] eqn:E; cbn [bind]; [| |discriminate].
    + destruct (pick_P _ _ _ _ Hs (fun q x => order_sub _ q x) _ _ _ _ Hq E). apply IH; [apply Forall_app; split; auto|assumption].
    + intros X. injection X as <- _ <- _. auto.
Qed.
Lemma in_loop_P ss : Forall P ss -> forall k st inds q st' inds' q' b, Forall P st -> st = rev st -> Forall P q ->
  in_loop c ss k st inds q = Ok (st', inds', q', b) -> Forall P st' /\ st' = rev st' /\ Forall P q'.
Proof.
  intros Hs. induction k as [|k IH]; intros st inds q st' inds' q' b Ht Hr Hq; cbn [in_loop].
  - intros E. injection E as <- _ <- _. auto.
  - destruct (RepairDiso.pick _ _ _ _ _) as [[[[a i] q1]|]|] eqn:E; cbn [bind]; [| |discriminate].
    + destruct (pick_P _ _ _ _ Hs (fun q x => order_sub _ q x) _ _ _ _ Hq E). apply IH; [constructor; [assumption|apply Forall_app; split; auto]| |assumption].
      cbn [rev]. rewrite rev_app_distr. cbn [rev app]. rewrite <- Hr. reflexivity.
    + intros X. injection X as <- _ <- _. auto.
Qed.
Lemma out_loop_asym_P ss : Forall P ss -> forall k step t bt inds q t' bt' inds' q' b, Forall P t -> Forall P bt -> Forall P q ->
  out_loop_asym c ss k step t bt inds q = Ok (t', bt', inds', q', b) -> Forall P t' /\ Forall P bt' /\ Forall P q'.
Proof.
  intros Hs. induction k as [|k IH]; intros step t bt inds q t' bt' inds' q' b Ht Hb Hq; cbn [out_loop_asym].
  - intros E. injection E as <- <- _ <- _. auto.
  - destruct (Nat.even step); (destruct (RepairDiso.pick _ _ _ _ _) as [[[[a i] q1]|]|] eqn:E; cbn [bind]; [| |discriminate]).
    + destruct (pick_P _ _ _ _ Hs (fun q x => order_sub _ q x) _ _ _ _ Hq E). apply IH; auto.
    + intros X. injection X as <- <- _ <- _. auto.
    + destruct (pick_P _ _ _ _ Hs (fun q x => order_sub _ q x) _ _ _ _ Hq E). apply IH; auto. apply Forall_app; split; auto.
    + intros X. injection X as <- <- _ <- _. auto.
Qed.
Lemma in_loop_asym_P ss : Forall P ss -> forall k step st inds q st' inds' q' b n, Forall P st -> Forall P q ->
  in_loop_asym c ss k step st inds q = Ok (st', inds', q', b, n) -> Forall P st' /\ Forall P q'.
Proof.
  intros Hs. induction k as [|k IH]; intros step st inds q st' inds' q' b n Ht Hq; cbn [in_loop_asym].
  - intros E. injection E as <- _ <- _ _. auto.
  - destruct (Nat.even step); (destruct (RepairDiso.pick _ _ _ _ _) as [[[[a i] q1]|]|] eqn:E; cbn [bind]; [| |discriminate]).
    + destruct (pick_P _ _ _ _ Hs (fun q x => order_sub _ q x) _ _ _ _ Hq E). apply IH; auto.
    + intros X. injection X as <- _ <- _ _. auto.
    + destruct (pick_P _ _ _ _ Hs (fun q x => order_sub _ q x) _ _ _ _ Hq E). apply IH; auto. apply Forall_app; split; auto.
    + intros X. injection X as <- _ <- _ _. auto.
Qed.
Lemma place_alt_P : forall plies step st, Forall P plies -> Forall P st -> Forall P (place_alt step plies st).
Proof.
  induction plies as [|x plies IH]; intros step st Hp Hs; cbn [place_alt]; [exact Hs|]. inversion Hp; subst. apply IH; [assumption|].
  destruct (Nat.even step); [constructor; assumption|apply Forall_app; split; auto].
Qed.

Ltac appP := repeat first [apply Forall_app; split | apply rev_P]; auto using firstn_P, skipn_P, lastn_P, rev_P, arranged_P, middle_P.

Lemma outside_sym_P n_D1 ss q s b q' : Forall P ss -> Forall P q -> outside_sym c n_D1 ss q = Ok (s, b, q') ->
  Forall P s /\ s = rev s /\ Forall P q'.
Proof.
  intros Hs Hq. unfold outside_sym. cbv zeta. destruct (Nat.ltb _ _); [discriminate|].
  destruct (out_loop _ _ _ _ _ _) as [[[[st inds] q1] done]|] eqn:E; cbn [bind]; [|discriminate].
  destruct (out_loop_P ss Hs _ _ _ _ _ _ _ _ (firstn_P P _ _ Hs) Hq E) as [H1 H2].
  destruct (rest ss inds q1) as [[rem q2]|] eqn:R; cbn [bind]; [|discriminate]. destruct (rest_P ss inds Hs _ _ _ H2 R) as [H3 H4].
  assert (G : Forall P (st ++ rem ++ middle ss ++ rev (st ++ rem)) /\ st ++ rem ++ middle ss ++ rev (st ++ rem) = rev (st ++ rem ++ middle ss ++ rev (st ++ rem))).
  { split; [appP|]. rewrite (app_assoc st rem). apply mirror. }
  destruct done; cbn [negb]; [|intros X; injection X as <- _ <-; tauto].
  destruct (Nat.ltb _ _); [discriminate|]. destruct (filterR _ _) as [good|]; cbn [bind]; [|discriminate].
  destruct (smallest_row good) as [pm|]; [|intros X; injection X as <- _ <-; tauto].
  destruct (negb _); [discriminate|]. intros X. injection X as <- _ <-. split; [appP|]. split; [apply mirror|exact H4].
Qed.
Lemma inside_sym_P n_D1 ss q s b q' : Forall P ss -> Forall P q -> inside_sym c n_D1 ss q = Ok (s, b, q') ->
  Forall P s /\ s = rev s /\ Forall P q'.
Proof.
  intros Hs Hq. unfold inside_sym. cbv zeta. destruct (_ || _)%bool; [discriminate|].
  set (centre := if Nat.odd (length ss) then _ else _).
  assert (Hc : Forall P centre /\ centre = rev centre).
  { unfold centre. destruct (Nat.odd _); (split; [repeat constructor; apply nth_P; assumption|reflexivity]). }
  destruct (in_loop _ _ _ _ _ _) as [[[[st inds] q1] done]|] eqn:E; cbn [bind]; [|discriminate].
  destruct (in_loop_P ss Hs _ _ _ _ _ _ _ _ (proj1 Hc) (proj2 Hc) Hq E) as (H1 & Hr & H2).
  destruct (rest ss inds q1) as [[rem q2]|] eqn:R; cbn [bind]; [|discriminate]. destruct (rest_P ss inds Hs _ _ _ H2 R) as [H3 H4].
  set (o := firstn (n_outer_in c) ss).
  assert (G : Forall P (o ++ rev rem ++ st ++ rem ++ rev o) /\ o ++ rev rem ++ st ++ rem ++ rev o = rev (o ++ rev rem ++ st ++ rem ++ rev o)).
  { split; [unfold o; appP|]. pose proof (mirror_in o (rev rem) st Hr) as X. rewrite rev_involutive in X. exact X. }
  destruct done; cbn [negb]; [|intros X; injection X as <- _ <-; tauto].
  destruct (Nat.ltb _ _); [discriminate|]. destruct (filterR _ _) as [good|]; cbn [bind]; [|discriminate].
  destruct (smallest_row good) as [pm|]; [|intros X; injection X as <- _ <-; tauto].
  destruct (negb _); [discriminate|]. intros X. injection X as <- _ <-. split; [unfold o; appP|]. split; [apply mirror_in, Hr|exact H4].
Qed.
Lemma outside_asym_P n_D1 ss q s b q' : Forall P ss -> Forall P q -> outside_asym c n_D1 ss q = Ok (s, b, q') -> Forall P s /\ Forall P q'.
Proof.
  intros Hs Hq. unfold outside_asym. cbv zeta. destruct (Nat.ltb _ _); [discriminate|].
  destruct (out_loop_asym _ _ _ _ _ _ _ _) as [[[[[t bt] inds] q1] done]|] eqn:E; cbn [bind]; [|discriminate].
  destruct (out_loop_asym_P ss Hs _ _ _ _ _ _ _ _ _ _ _ (firstn_P P _ _ Hs) (lastn_P P _ _ Hs) Hq E) as (H1 & H1' & H2).
  destruct (rest ss inds q1) as [[rem q2]|] eqn:R; cbn [bind]; [|discriminate]. destruct (rest_P ss inds Hs _ _ _ H2 R) as [H3 H4].
  destruct done; cbn [negb]; [|intros X; injection X as <- _ <-; split; [appP|assumption]].
  destruct (Nat.ltb _ _); [discriminate|]. destruct (filterR _ _) as [good|]; cbn [bind]; [|discriminate].
  destruct (smallest_row good) as [pm|]; [|intros X; injection X as <- _ <-; split; [appP|assumption]].
  destruct (negb _); [discriminate|]. intros X. injection X as <- _ <-. split; [appP|assumption].
Qed.
Lemma inside_asym_P n_D1 ss q s b q' : Forall P ss -> Forall P q -> inside_asym c n_D1 ss q = Ok (s, b, q') -> Forall P s /\ Forall P q'.
Proof.
  intros Hs Hq. unfold inside_asym. cbv zeta. destruct (_ || _)%bool; [discriminate|].
  destruct (in_loop_asym _ _ _ _ _ _ _) as [[[[[st inds] q1] done] step]|] eqn:E; cbn [bind]; [|discriminate].
  assert (H0 : Forall P [nth (hd 0%nat (indices_in (n_outer_in c) (length ss))) ss 0]) by (repeat constructor; apply nth_P; assumption).
  destruct (in_loop_asym_P ss Hs _ _ _ _ _ _ _ _ _ _ H0 Hq E) as (H1 & H2).
  destruct done; cbn [negb].
  - destruct (Nat.ltb _ _); [discriminate|].
    destruct (rest ss (sort_nat inds) q1) as [[rem q2]|] eqn:R; cbn [bind]; [|discriminate]. destruct (rest_P ss _ Hs _ _ _ H2 R) as [H3 H4].
    destruct (filterR _ _) as [good|]; cbn [bind]; [|discriminate].
    destruct (smallest_row good) as [pm|].
    + destruct (negb _); [discriminate|]. intros X. injection X as <- _ <-. split; [appP|assumption].
    + destruct (rest ss inds q1) as [[rem' q2']|] eqn:R'; cbn [bind]; [|discriminate]. destruct (rest_P ss _ Hs _ _ _ H2 R') as [H3' H4'].
      destruct (negb _); [discriminate|]. intros X. injection X as <- _ <-. cbn [fst]. split; [appP; apply place_alt_P; assumption|assumption].
  - destruct (rest ss inds q1) as [[rem' q2']|] eqn:R'; cbn [bind]; [|discriminate]. destruct (rest_P ss _ Hs _ _ _ H2 R') as [H3' H4'].
    destruct (negb _); [discriminate|]. intros X. injection X as <- _ <-. cbn [fst snd]. split; [appP; apply place_alt_P; assumption|assumption].
Qed.

Lemma repair_diso_P n_D1 ss q s i o q' : Forall P ss -> Forall P q -> repair_diso_contig c n_D1 ss q = Ok (s, i, o, q') ->
  Forall P s /\ (sym c = true -> s = rev s).
Proof.
  intros Hs Hq. unfold repair_diso_contig. destruct (sym c) eqn:Y.
  - destruct (outside_sym c n_D1 ss q) as [[[s1 b1] q1]|] eqn:E1; cbn [bind]; [|discriminate]. destruct (outside_sym_P _ _ _ _ _ _ Hs Hq E1) as (A & B & C).
    destruct b1; [intros X; injection X as <- _ _ _; auto|].
    destruct (inside_sym c n_D1 s1 q1) as [[[s2 b2] q2]|] eqn:E2; cbn [bind]; [|discriminate]. destruct (inside_sym_P _ _ _ _ _ _ A C E2) as (A' & B' & _).
    intros X; injection X as <- _ _ _; auto.
  - destruct (outside_asym c n_D1 ss q) as [[[s1 b1] q1]|] eqn:E1; cbn [bind]; [|discriminate]. destruct (outside_asym_P _ _ _ _ _ _ Hs Hq E1) as (A & C).
    destruct b1; [intros X; injection X as <- _ _ _; split; [auto|discriminate]|].
    destruct (inside_asym c n_D1 s1 q1) as [[[s2 b2] q2]|] eqn:E2; cbn [bind]; [|discriminate]. destruct (inside_asym_P _ _ _ _ _ _ A C E2) as (A' & _).
    intros X; injection X as <- _ _ _; split; [auto|discriminate].
Qed.
Lemma repair_list_P n_D1 l s i o k : (forall ss q, In (ss, q) l -> Forall P ss /\ Forall P q) ->
  repair_diso_contig_list c n_D1 l = Ok (s, i, o, k) -> Forall P s /\ (sym c = true -> s = rev s).
Proof.
  unfold repair_diso_contig_list.
  assert (G : forall l ind ss0, (forall ss q, In (ss, q) l -> Forall P ss /\ Forall P q) -> (forall s, ss0 = Some s -> Forall P s /\ (sym c = true -> s = rev s)) ->
    repair_list_loop c n_D1 l ind ss0 = Ok (s, i, o, k) -> Forall P s /\ (sym c = true -> s = rev s)).
  { clear l. induction l as [|[ss q] l IH]; intros ind ss0 Hl H0; cbn [repair_list_loop].
    - destruct ss0 as [s0|]; [|discriminate]. intros X. injection X as <- _ _ _. apply H0; reflexivity.
    - destruct (repair_diso_contig c n_D1 ss q) as [[[[s1 i1] o1] q1]|] eqn:E; cbn [bind]; [|discriminate].
      destruct (Hl ss q (or_introl eq_refl)) as [A B]. pose proof (repair_diso_P _ _ _ _ _ _ _ A B E) as R.
      destruct (i1 || o1)%bool; [intros X; injection X as <- _ _ _; exact R|].
      apply IH; [intros; apply Hl; now right|]. destruct (Nat.eqb ind 0); [intros s' X; injection X as <-; exact R|exact H0]. }
  intros Hl. apply G; [exact Hl|discriminate].
Qed.
End Diso.

(* ------------------------------------------------------------------ *)
(** ** balance and the 10% rule, in-plane refinement *)
Section Ten.
Variable c : cons.
Variable cos_sin : Z -> nat -> Q.
Variable dist : vec -> Q.
(** the plies that may be placed *)
Variable A : Z -> Prop.
Hypothesis A0 : A 0.
Hypothesis Aset : forall a, In a (set_of_angles c) -> A a.
Hypothesis Aneg : forall a, A a -> a <> 90 -> A (- a).
Hypothesis A10 : rule_10_percent c = true -> A 90 /\ A 45 /\ A (-45).
Let U (x : Z) : Prop := x = 666 \/ A x.
Let good (sq : list Z * list Z) : Prop := Forall U (fst sq) /\ Forall A (snd sq).

Lemma queue_loop_P l : Forall A l -> forall q m k q2 m2 ch, Forall A q ->
  queue_loop (ipo c) l q m = (k, q2, m2, ch) -> Forall A q2 /\ (m = 0 -> m2 = 0).
Proof.
  induction l as [|a l IH]; intros Hl q m k q2 m2 ch Hq; cbn [queue_loop].
  - intros E. injection E as _ <- <- _. auto.
  - inversion Hl as [|? ? Ha Hl']; subst.
    destruct (take_ply (ipo c) a q m) as [q' m'] eqn:T.
    assert (G : Forall A q' /\ (m = 0 -> m' = 0)).
    { unfold take_ply in T. destruct (memb a q); injection T as <- <-.
      - split; [apply remove1_P, Hq|auto].
      - split; [|destruct (_ && _)%bool; lia]. destruct (_ && _)%bool eqn:Ea; [|exact Hq]. apply Forall_app. split; [exact Hq|]. repeat constructor.
        apply Aneg; [exact Ha|]. apply andb_true_iff in Ea. destruct Ea as [_ Ea]. apply negb_true_iff, orb_false_iff in Ea. lia. }
    destruct G as (G1 & G3).
    destruct (zlen l <? zlen q' + m'); [intros E; injection E as _ <- <- _; auto|].
    destruct (queue_loop (ipo c) l q' m') as [[[k' q2'] m2'] ch'] eqn:El. intros E. injection E as _ <- <- _.
    destruct (IH Hl' _ _ _ _ _ _ G1 El). split; [assumption|auto].
Qed.

Lemma forget_P sy inds : forall s, Forall U s -> Forall U (forget sy inds s).
Proof.
  unfold forget. induction inds as [|i inds IH]; intros s H; cbn [fold_left]; [exact H|]. apply IH. destruct sy; repeat apply upd_P; auto; now left.
Qed.

Lemma repair_2_P ss m : Forall A ss -> good (repair_10_bal_2 c ss m).
Proof.
  intros Hs. unfold repair_10_bal_2. destruct (_ && _)%bool.
  { split; cbn [fst snd]; [|constructor]. eapply Forall_impl; [|exact Hs]. intros; now right. }
  cbv zeta. set (s0 := set_middle (sym c) ss).
  assert (H0 : Forall A s0) by (unfold s0, set_middle; destruct (_ && _)%bool; [apply upd_P; assumption|assumption]).
  destruct (queue_loop _ _ _ _) as [[[k q] mm] ch] eqn:E.
  assert (Hf : Forall A (first_queue c m)).
  { unfold first_queue. destruct (rule_10_percent c) eqn:R; [|constructor]. destruct (A10 eq_refl) as (B1 & B2 & B3).
    repeat (apply Forall_app; split); apply Forall_forall; intros x Hx; apply repeat_spec in Hx; subst; assumption. }
  assert (Hl : Forall A (map (fun i => nth i s0 0) (ind_plies (sym c) (length s0)))).
  { apply Forall_forall. intros x X. apply in_map_iff in X. destruct X as [i [<- _]]. apply nth_P; assumption. }
  destruct (queue_loop_P _ Hl _ _ _ _ _ _ Hf E) as [Hq Hm].
  assert (He : Forall A (q ++ extra_45 mm)).
  { apply Forall_app. split; [exact Hq|]. unfold extra_45. destruct (rule_10_percent c) eqn:R.
    - destruct (A10 eq_refl) as (B1 & B2 & B3). apply Forall_forall. intros x X. apply in_map_iff in X. destruct X as [i [<- _]]. destruct (Nat.odd i); assumption.
    - rewrite Hm; [constructor|]. unfold first_missing. rewrite R. reflexivity. }
  split; cbn [fst snd].
  - apply forget_P. eapply Forall_impl; [|exact H0]. intros; now right.
  - destruct (_ && _)%bool; [apply Forall_app; split; [exact He|repeat constructor; exact A0]|exact He].
Qed.

Lemma change_ply_P ind a b sq sq' : A b -> good sq -> change_ply c ind a b sq = Ok sq' -> good sq'.
Proof.
  intros Hb [H1 H2]. unfold change_ply. destruct (ind =? 6666).
  - destruct (memb a (snd sq)); [|discriminate]. intros E. injection E as <-. split; cbn [fst snd]; [exact H1|]. apply Forall_app. split; [apply remove1_P, H2|auto].
  - intros E. injection E as <-. split; cbn [fst snd]; [|exact H2]. destruct (sym c); repeat apply upd_P; auto; now right.
Qed.
Definition goodm (st : mstate) : Prop := good (m_ss st, m_q st).
Lemma partner_P a : A a -> A (partner a).
Proof. intros H. unfold partner. destruct (Z.eqb_spec a 90) as [->|N]; [exact H|apply Aneg; assumption]. Qed.
Lemma pos_P i : A (nth i (pos_angles c) 0).
Proof.
  destruct (nth_in_or_default i (pos_angles c) 0) as [I|E]; [|rewrite E; exact A0].
  revert I. generalize (nth i (pos_angles c) 0) as z. intros z I. unfold pos_angles in I. rewrite uniq_in, in_map_iff in I. destruct I as [x [<- X]].
  destruct (Z_le_dec 0 x) as [L|L]; [rewrite Z.abs_eq by lia; apply Aset, X|]. rewrite Z.abs_neq by lia. apply Aneg; [apply Aset, X|lia].
Qed.
Lemma set_P i : A (nth i (set_of_angles c) 0).
Proof. destruct (nth_in_or_default i (set_of_angles c) 0) as [I|E]; [apply Aset, I|rewrite E; exact A0]. Qed.

Lemma change_couple_P order a1 a2 k1 k1' k2 k2' st lp obj ex st' : A a2 -> goodm st ->
  change_couple c order a1 a2 k1 k1' k2 k2' st lp obj ex = Ok st' -> goodm st'.
Proof.
  intros Ha G. unfold change_couple.
  destruct (pop_index k1 (m_ind st)) as [p1|]; cbn [bind]; [|discriminate]. destruct (pop_index k1' (snd p1)) as [p2|]; cbn [bind]; [|discriminate].
  destruct (change_ply c (fst p1) a1 a2 _) as [s1|] eqn:E1; cbn [bind]; [|discriminate]. destruct (change_ply c (fst p2) _ _ s1) as [s2|] eqn:E2; cbn [bind]; [|discriminate].
  destruct (resort_at _ _ _ _) as [l1|]; cbn [bind]; [|discriminate]. destruct (resort_at _ _ _ l1) as [l2|]; cbn [bind]; [|discriminate].
  intros E. injection E as <-. unfold goodm; cbn [m_ss m_q]. rewrite <- surjective_pairing.
  eapply change_ply_P; [apply partner_P, Ha| |exact E2]. eapply change_ply_P; [exact Ha|exact G|exact E1].
Qed.
Lemma change_one_P order a1 a2 k1 k2 st lp obj ex st' : A a2 -> goodm st ->
  change_one c order a1 a2 k1 k2 st lp obj ex = Ok st' -> goodm st'.
Proof.
  intros Ha G. unfold change_one.
  destruct (pop_index k1 (m_ind st)) as [p1|]; cbn [bind]; [|discriminate].
  destruct (change_ply c (fst p1) a1 a2 _) as [s1|] eqn:E1; cbn [bind]; [|discriminate].
  destruct (resort_at _ _ _ _) as [l1|]; cbn [bind]; [|discriminate].
  intros E. injection E as <-. unfold goodm; cbn [m_ss m_q]. rewrite <- surjective_pairing. eapply change_ply_P; [exact Ha|exact G|exact E1].
Qed.

(** the repair for the rule of Abdalla *)
Lemma approach_P m opts step : (forall st v i j st', goodm st -> step st v i j = Ok (Some st') -> goodm st') -> forall fuel tab st st', goodm st ->
  approach m opts step fuel tab st = Ok st' -> goodm st'.
Proof.
  intros Hs. induction fuel as [|fuel IH]; intros tab st st' G; cbn [approach]; (destruct (Qltb em10 (m_obj st)); [|intros E; injection E as <-; exact G]); [discriminate|].
  destruct (argmin tab) as [k|]; cbn [bind]; [|discriminate]. destruct (step st _ _ _) as [[s|]|] eqn:E; cbn [bind]; [| |discriminate].
  - apply Hs in E; [|exact G]. destruct (Qltb (m_obj s) em10); [intros X; injection X as <-; exact E|apply IH, E].
  - apply IH, G.
Qed.
Lemma start_dist_P ss q st : good (ss, q) -> start_dist c cos_sin dist ss q = Ok st -> goodm st.
Proof.
  intros G. unfold start_dist. destruct (calc_lampamA_ply_queue _ _ _ _); cbn [bind]; [|discriminate]. destruct (calc_ind_plies _ _ _ _); cbn [bind]; [|discriminate].
  intros E. injection E as <-. exact G.
Qed.
Lemma couple_step_P order n st v i j st' : goodm st -> couple_step c cos_sin order n st v i j = Ok (Some st') -> goodm st'.
Proof.
  intros G. unfold couple_step. cbv zeta. repeat (destruct (lookup c _); cbn [bind]; [|discriminate]). destruct (no_couple _ _ _ _); [discriminate|].
  destruct (change_couple _ _ _ _ _ _ _ _ _ _ _ _) as [s|] eqn:E; cbn [bind]; [|discriminate]. intros X. injection X as <-. eapply change_couple_P; [apply pos_P|exact G|exact E].
Qed.
Lemma one_step_P order n st v i j st' : goodm st -> one_step c cos_sin order n st v i j = Ok (Some st') -> goodm st'.
Proof.
  intros G. unfold one_step. cbv zeta. destruct (Nat.ltb _ _); [discriminate|].
  destruct (change_one _ _ _ _ _ _ _ _ _ _) as [s|] eqn:E; cbn [bind]; [|discriminate]. intros X. injection X as <-. eapply change_one_P; [apply set_P|exact G|exact E].
Qed.
Lemma exchange_P shift a b ka st sq : A b -> goodm st -> exchange c dist shift a b ka st = Ok (Some sq) -> good sq.
Proof.
  intros Hb G. unfold exchange. destruct (nth ka (m_ind st) []); [discriminate|]. destruct (Qltb _ _); [|discriminate].
  destruct (pop_index _ _); cbn [bind]; [|discriminate]. destruct (change_ply _ _ _ _ _) as [s|] eqn:E; cbn [bind]; [|discriminate]. intros X. injection X as <-.
  eapply change_ply_P; [exact Hb|exact G|exact E].
Qed.
Lemma repair_all_P fuel ss m sq : Forall A ss -> repair_10_bal_all c cos_sin dist fuel ss m = Ok sq -> good sq.
Proof.
  intros Hs. unfold repair_10_bal_all. destruct (negb _) eqn:Y; [intros E; injection E as <-; apply repair_2_P, Hs|].
  pose proof (repair_2_P ss (calc_mini_10 c (length ss)) Hs) as G. destruct (repair_10_bal_2 _ _ _) as [s q].
  apply negb_false_iff, andb_true_iff in Y. destruct Y as [R10 _]. destruct (A10 R10) as (B1 & B2 & B3).
  destruct (bal c).
  - unfold repair_10_Abdalla_ipo. destruct (start_dist _ _ _ _ _) as [st|] eqn:E; cbn [bind]; [|discriminate]. apply start_dist_P in E; [|exact G].
    cbv zeta. destruct (approach _ _ _ _ _ _) as [st1|] eqn:E1; cbn [bind]; [|discriminate].
    apply approach_P in E1; [|intros st0 v i j st'; apply couple_step_P|exact E].
    destruct (index_pos c 0); cbn [bind]; [|discriminate]. destruct (index_pos c 90); cbn [bind]; [|discriminate]. destruct (lookup c 0); cbn [bind]; [|discriminate]. destruct (lookup c 90); cbn [bind]; [|discriminate].
    destruct (exchange c dist _ 0 90 _ st1) as [[o|]|] eqn:X; cbn [bind]; [intros Z; injection Z as <-; eapply exchange_P; [|exact E1|exact X]; exact B1| |discriminate].
    destruct (exchange c dist _ 90 0 _ st1) as [[o|]|] eqn:X'; cbn [bind]; [intros Z; injection Z as <-; eapply exchange_P; [|exact E1|exact X']; exact A0| |discriminate].
    intros Z. injection Z as <-. exact E1.
  - unfold repair_10_Abdalla_no_ipo. destruct (start_dist _ _ _ _ _) as [st|] eqn:E; cbn [bind]; [|discriminate]. apply start_dist_P in E; [|exact G].
    cbv zeta. destruct (approach _ _ _ _ _ _) as [st1|] eqn:E1; cbn [bind]; [|discriminate].
    apply approach_P in E1; [|intros st0 v i j st'; apply one_step_P|exact E]. intros Z. injection Z as <-. exact E1.
Qed.

(** the in-plane refinement *)
Variables coeffs target : vec.
Lemma refine_P m opts step : (forall st v i j st', goodm st -> step st v i j = Ok (Accept st') -> goodm st') -> forall fuel tab st acc st' acc', goodm st -> Forall goodm acc ->
  refine m opts step fuel tab st acc = Ok (st', acc') -> goodm st' /\ Forall goodm acc'.
Proof.
  intros Hs. induction fuel as [|fuel IH]; intros tab st acc st' acc' G Ga; cbn [refine]; [discriminate|].
  destruct (argmin tab) as [k|]; cbn [bind]; [|discriminate]. destruct (_ && _)%bool; [|intros E; injection E as <- <-; auto].
  destruct (step st _ _ _) as [[|i' j'|s]|] eqn:E; cbn [bind]; [apply IH; assumption|destruct (_ && _)%bool; [apply IH; assumption|discriminate]| |discriminate].
  apply Hs in E; [|exact G]. destruct (Qltb (m_obj s) em10); [intros X; injection X as <- <-; auto|apply IH; auto].
Qed.
Lemma start_state_P p_A ss q ex st : good (ss, q) -> start_state c cos_sin coeffs target p_A ss q ex = Ok st -> goodm st.
Proof.
  intros G. unfold start_state. destruct (calc_lampamA_ply_queue _ _ _ _); cbn [bind]; [|discriminate]. destruct (calc_ind_plies _ _ _ _); cbn [bind]; [|discriminate].
  intros E. injection E as <-. exact G.
Qed.
Lemma step_no_ipo_P order n st v i j st' : goodm st -> step_no_ipo_Abdalla c cos_sin dist order n st v i j = Ok (Accept st') -> goodm st'.
Proof.
  intros G. unfold step_no_ipo_Abdalla. cbv zeta. destruct (Nat.ltb _ _); [discriminate|]. destruct (Qltb _ _); [discriminate|].
  destruct (change_one _ _ _ _ _ _ _ _ _ _) as [s|] eqn:E; cbn [bind]; [|discriminate]. intros X. injection X as <-. eapply change_one_P; [apply set_P|exact G|exact E].
Qed.
Lemma step_ipo_P order n st v i j st' : goodm st -> step_ipo_Abdalla c cos_sin dist order n st v i j = Ok (Accept st') -> goodm st'.
Proof.
  intros G. unfold step_ipo_Abdalla. cbv zeta. repeat (destruct (lookup c _); cbn [bind]; [|discriminate]). destruct (no_couple _ _ _ _); [discriminate|]. destruct (Qltb _ _); [discriminate|].
  destruct (change_couple _ _ _ _ _ _ _ _ _ _ _ _) as [s|] eqn:E; cbn [bind]; [|discriminate]. intros X. injection X as <-. eapply change_couple_P; [apply pos_P|exact G|exact E].
Qed.
Lemma swap_P shift allowed a b ka st st' : A b -> goodm st -> swap_0_90 c coeffs target shift allowed a b ka st = Ok (Some st') -> goodm st'.
Proof.
  intros Hb G. unfold swap_0_90. destruct (nth ka (m_ind st) []); [discriminate|]. destruct (_ && _)%bool; [|discriminate].
  destruct (pop_index _ _); cbn [bind]; [|discriminate]. destruct (change_ply _ _ _ _ _) as [s|] eqn:E; cbn [bind]; [|discriminate]. intros X. injection X as <-.
  unfold goodm; cbn [m_ss m_q]. rewrite <- surjective_pairing. eapply change_ply_P; [exact Hb|exact G|exact E].
Qed.
Lemma membrane_P switch fuel p_A ss q m l : good (ss, q) -> repair_membrane c cos_sin dist coeffs target switch fuel p_A ss q m = Ok l ->
  forall sq, In sq l -> good sq.
Proof.
  intros G. unfold repair_membrane. destruct (_ || _)%bool.
  { destruct (calc_lampamA_ply_queue _ _ _ _); cbn [bind]; [|discriminate]. intros E. injection E as <-. intros sq [<-|[]]. exact G. }
  destruct (repair_membrane_1 _ _ _ _ _ _ _ _ _ _) as [ll|] eqn:E; cbn [bind]; [|discriminate]. intros X. injection X as <-. intros sq Hsq. apply in_map_iff in Hsq. destruct Hsq as [st [<- Hst]].
  assert (F : Forall goodm ll); [|rewrite Forall_forall in F; apply F, Hst]. clear Hst. revert E. unfold repair_membrane_1.
  destruct (rule_10_percent c && rule_10_Abdalla c)%bool eqn:R.
  - apply andb_true_iff in R. destruct R as [R10 _]. destruct (A10 R10) as (B1 & _). destruct (ipo c).
    + unfold repair_membrane_1_ipo_Abdalla. destruct (start_state _ _ _ _ _ _ _ _) as [s0|] eqn:E0; cbn [bind]; [|discriminate]. apply start_state_P in E0; [|exact G]. cbv zeta.
      destruct (refine _ _ _ _ _ _ _) as [[s1 acc]|] eqn:E1; cbn [bind]; [|discriminate]. apply refine_P in E1; [|intros ? ? ? ? ?; apply step_ipo_P|exact E0|auto]. destruct E1 as [G1 Ga].
      unfold finish_ipo. destruct (index_pos c 0); cbn [bind]; [|discriminate]. destruct (index_pos c 90); cbn [bind]; [|discriminate]. destruct (lookup c 0); cbn [bind]; [|discriminate]. destruct (lookup c 90); cbn [bind]; [|discriminate]. cbv zeta. cbn [fst snd].
      destruct (swap_0_90 _ _ _ _ _ 0 90 _ _) as [[o|]|] eqn:X; cbn [bind]; [intros Z; injection Z as <-; constructor; [eapply swap_P; [|exact G1|exact X]; exact B1|exact Ga]| |discriminate].
      destruct (swap_0_90 _ _ _ _ _ 90 0 _ _) as [[o|]|] eqn:X'; cbn [bind]; [intros Z; injection Z as <-; constructor; [eapply swap_P; [|exact G1|exact X']; exact A0|exact Ga]| |discriminate].
      intros Z. injection Z as <-. exact Ga.
    + unfold repair_membrane_1_no_ipo_Abdalla. destruct (start_state _ _ _ _ _ _ _ _) as [s0|] eqn:E0; cbn [bind]; [|discriminate]. apply start_state_P in E0; [|exact G]. cbv zeta.
      destruct (refine _ _ _ _ _ _ _) as [[s1 acc]|] eqn:E1; cbn [bind]; [|discriminate]. apply refine_P in E1; [|intros ? ? ? ? ?; apply step_no_ipo_P|exact E0|auto]. intros Z. injection Z as <-. apply E1.
  - destruct (ipo c); unfold repair_membrane_1_ipo, repair_membrane_1_no_ipo; [|discriminate].
    destruct (calc_lampamA_ply_queue _ _ _ _); cbn [bind]; [|discriminate]. destruct (calc_excess_10 _ _ _ _); cbn [bind]; [|discriminate]. destruct (calc_ind_plies _ _ _ _); cbn [bind]; discriminate.
Qed.
End Ten.
