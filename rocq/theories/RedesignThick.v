(* RedesignThick.v - invariants of the re-design of the panels thicker than the reference panel *)
From Verif Require Import Base Uniq Constraints Guidelines SpecGuidelines Divers DiversProofs Spacing Strip StripProofs Format Search SearchProofs Objectives GateProofs SpecRedesign Redesign RedesignProofs.
Local Open Scope Z_scope.

(* ------------------------------------------------------------------ *)
(** ** insertion of a ply *)
Lemma insert_length k x r : length (insert_at k x r) = S (length r).
Proof. unfold insert_at. rewrite app_length. cbn [length]. rewrite firstn_length, skipn_length. lia. Qed.
Lemma plies_app l m : plies_of (l ++ m) = plies_of l ++ plies_of m.
Proof. apply filter_app. Qed.
Lemma insert_dropped k r : plies_of (insert_at k (-1) r) = plies_of r.
Proof. unfold insert_at. rewrite plies_app. cbn [plies_of filter]. change (negb (-1 =? dropped)) with false. cbv iota. fold (plies_of (skipn k r)). now rewrite <- plies_app, firstn_skipn. Qed.
Lemma insert_in k x r y : In y (insert_at k x r) -> y = x \/ In y r.
Proof.
  unfold insert_at. rewrite in_app_iff. intros [H|[H|H]]; [right|left; auto|right].
  - rewrite <- (firstn_skipn k r). apply in_app_iff. now left.
  - rewrite <- (firstn_skipn k r). apply in_app_iff. now right.
Qed.
Lemma forall2_app {A B} (P : A -> B -> Prop) l1 l2 m1 m2 : Forall2 P l1 m1 -> Forall2 P l2 m2 -> Forall2 P (l1 ++ l2) (m1 ++ m2).
Proof. intros H. induction H; cbn; auto. Qed.
Lemma forall2_firstn {A B} (P : A -> B -> Prop) k l m : Forall2 P l m -> Forall2 P (firstn k l) (firstn k m).
Proof. intros H. revert k. induction H; intros [|k]; cbn; constructor; auto. Qed.
Lemma forall2_skipn {A B} (P : A -> B -> Prop) k l m : Forall2 P l m -> Forall2 P (skipn k l) (skipn k m).
Proof. intros H. revert k. induction H; intros [|k]; cbn; auto. Qed.
Lemma insert_drops k y r t : drops_from r t -> drops_from (insert_at k (-1) r) (insert_at k y t).
Proof. intros H. unfold drops_from, insert_at. apply forall2_app; [apply forall2_firstn, H|]. constructor; [now right|]. apply forall2_skipn, H. Qed.
Lemma count_plies_insert a k x r : x <> -1 -> count a (plies_of (insert_at k x r)) = count a (plies_of r) + (if a =? x then 1 else 0).
Proof.
  intros H. unfold insert_at. rewrite plies_app, count_app. cbn [plies_of filter]. destruct (Z.eqb_spec x dropped) as [E|E]; [contradiction|]. cbn [negb].
  rewrite count_cons. fold (plies_of (skipn k r)). rewrite <- (firstn_skipn k r) at 3. rewrite plies_app, count_app. destruct (Z.eq_dec x a), (Z.eqb_spec a x); lia.
Qed.
Lemma no_drop_plies r : ~ In dropped r -> plies_of r = r.
Proof.
  induction r as [|x r IH]; intros H; [reflexivity|]. cbn [plies_of filter]. destruct (Z.eqb_spec x dropped) as [->|E]; [elim H; now left|]. cbn [negb].
  f_equal. apply IH. intros X. apply H. now right.
Qed.

Section Widen.
Variable c : cons.
Local Notation du := (drop_unit (sym c)).
Lemma widen_length n k x r : Z.of_nat (length (widen c n k x r)) = Z.of_nat (length r) + du.
Proof. unfold widen, drop_unit. destruct (sym c); rewrite ?insert_length; lia. Qed.
Lemma widen_plies n k r : plies_of (widen c n k (-1) r) = plies_of r.
Proof. unfold widen. destruct (sym c); now rewrite ?insert_dropped. Qed.
Lemma widen_in n k x r y : In y (widen c n k x r) -> y = x \/ In y r.
Proof. unfold widen. destruct (sym c); intros H; repeat (apply insert_in in H; destruct H as [H|H]; [now left|]); now right. Qed.
Lemma widen_drops n k y r t : drops_from r t -> drops_from (widen c n k (-1) r) (widen c n k y t).
Proof. intros H. unfold widen. destruct (sym c); repeat apply insert_drops; exact H. Qed.
Lemma widen_count a n k x r : x <> -1 -> count a (plies_of (widen c n k x r)) = count a (plies_of r) + (if a =? x then du else 0).
Proof. intros H. unfold widen, drop_unit. destruct (sym c); rewrite !count_plies_insert by exact H; destruct (a =? x); lia. Qed.

(** both insertions at once *)
Lemma insert_both n k x (A M C : list Z) : length A = k -> length C = k -> n = (length A + length M + length C)%nat ->
  insert_at (n - k + 1) x (insert_at k x (A ++ M ++ C)) = A ++ x :: M ++ x :: C.
Proof.
  intros HA HC Hn. subst k. unfold insert_at at 2. rewrite firstn_app, skipn_app, Nat.sub_diag, firstn_all, skipn_all. cbn [firstn skipn app]. rewrite app_nil_r.
  unfold insert_at. replace (A ++ x :: M ++ C) with ((A ++ x :: M) ++ C) by (rewrite <- app_assoc; reflexivity).
  assert (L : (n - length A + 1)%nat = length (A ++ x :: M)) by (rewrite app_length; cbn [length]; lia). rewrite L.
  rewrite firstn_app, skipn_app, Nat.sub_diag, firstn_all, skipn_all. cbn [firstn skipn app]. rewrite app_nil_r, <- app_assoc. reflexivity.
Qed.
Lemma split_three k (r : list Z) : (2 * k <= length r)%nat -> exists A M C, r = A ++ M ++ C /\ length A = k /\ length C = k.
Proof.
  intros H. exists (firstn k r), (firstn (length r - 2 * k) (skipn k r)), (skipn (length r - 2 * k) (skipn k r)).
  rewrite firstn_skipn, firstn_skipn. split; [reflexivity|]. rewrite firstn_length, !skipn_length. lia.
Qed.
Lemma app_inj_len {A} (a b x y : list A) : length a = length x -> a ++ b = x ++ y -> a = x /\ b = y.
Proof.
  revert x. induction a as [|h a IH]; intros [|g x] L E; cbn in *; try discriminate; auto. injection E as <- E. destruct (IH x ltac:(lia) E) as (-> & ->). auto.
Qed.
Lemma widen_mirror k x r : sym c = true -> (2 * k <= length r)%nat -> palindrome r -> palindrome (widen c (length r) k x r).
Proof.
  intros Y H P. unfold widen. rewrite Y. destruct (split_three k r H) as (A & M & C & E & LA & LC).
  assert (Ln : length r = (length A + length M + length C)%nat) by (rewrite E, !app_length; lia).
  rewrite Ln. rewrite E. rewrite (insert_both _ k x A M C LA LC eq_refl). unfold palindrome in *. rewrite E in P. rewrite !rev_app_distr in P. rewrite <- app_assoc in P.
  destruct (app_inj_len A (M ++ C) (rev C) (rev M ++ rev A)) as (P1 & P2); [rewrite rev_length; lia|exact P|].
  destruct (app_inj_len M C (rev M) (rev A)) as (P3 & P4); [rewrite rev_length; lia|exact P2|].
  rewrite rev_app_distr. cbn [rev]. rewrite rev_app_distr. cbn [rev]. rewrite <- !app_assoc. cbn [app]. rewrite <- P1, <- P3, <- P4. reflexivity.
Qed.
Lemma widen_first q n k x r : (q <= k)%nat -> (k <= length r)%nat -> (sym c = true -> n = length r /\ (2 * k <= n)%nat) ->
  firstn q (widen c n k x r) = firstn q r.
Proof.
  intros H1 H2 H3. assert (F : forall j y (l : list Z), (q <= j)%nat -> (q <= length l)%nat -> firstn q (insert_at j y l) = firstn q l).
  { intros j y l A B. unfold insert_at. rewrite firstn_app, firstn_firstn, firstn_length, Nat.min_l by lia.
    replace (q - Nat.min j (length l))%nat with 0%nat by lia. cbn [firstn]. apply app_nil_r. }
  unfold widen. destruct (sym c); [|apply F; lia]. destruct (H3 eq_refl). rewrite F by (rewrite ?insert_length; lia). apply F; lia.
Qed.
Lemma lastn_insert q j y (l : list Z) : (j + q <= length l)%nat -> lastn q (insert_at j y l) = lastn q l.
Proof.
  intros H. unfold lastn. rewrite insert_length. unfold insert_at. rewrite skipn_app, firstn_length.
  rewrite (skipn_all2 (firstn j l)) by (rewrite firstn_length; lia). rewrite Nat.min_l by lia. cbn [app].
  replace (S (length l) - q - j)%nat with (S (length l - q - j)) by lia. cbn [skipn]. rewrite skipn_skipn. f_equal. lia.
Qed.
Lemma widen_last q n k x r : (k + q <= length r)%nat -> (sym c = true -> n = length r /\ (2 * k <= n)%nat /\ (q <= k)%nat) ->
  lastn q (widen c n k x r) = lastn q r.
Proof.
  intros H1 H2. unfold widen. destruct (sym c); [|apply lastn_insert; lia]. destruct (H2 eq_refl) as (A & B & D).
  rewrite lastn_insert by (rewrite insert_length; lia). apply lastn_insert. lia.
Qed.
End Widen.

(* ------------------------------------------------------------------ *)
(** ** the columns without a ply of the reference panel go *)
Section Clean.
Variable pr : list Z.
Definition clean_row (r : list Z) : list Z := map snd (filter (fun p => kept (fst p)) (List.combine pr r)).

Lemma kept_case x : kept x = negb (x =? dropped).
Proof. reflexivity. Qed.
End Clean.
Lemma clean_row_nil r : clean_row [] r = [].
Proof. reflexivity. Qed.
Lemma clean_row_cons x pr y r : clean_row (x :: pr) (y :: r) = if kept x then y :: clean_row pr r else clean_row pr r.
Proof. unfold clean_row. cbn [List.combine filter fst]. destruct (kept x); reflexivity. Qed.
Lemma clean_length pr : forall r, length r = length pr -> length (clean_row pr r) = length (plies_of pr).
Proof.
  induction pr as [|x pr IH]; intros [|y r] L; cbn [length] in L; try discriminate; [reflexivity|]. rewrite clean_row_cons. cbn [plies_of filter]. rewrite kept_case.
  destruct (negb (x =? dropped)); cbn [length]; rewrite IH by lia; reflexivity.
Qed.
Lemma clean_plies pr r : drops_from r pr -> plies_of (clean_row pr r) = plies_of r.
Proof.
  intros H. induction H as [|y x r pr E H IH]; [reflexivity|]. rewrite clean_row_cons, kept_case. destruct (Z.eqb_spec x dropped) as [->|X]; cbn [negb].
  - assert (y = dropped) as -> by (destruct E; auto). cbn [plies_of filter]. change (negb (dropped =? dropped)) with false. cbv iota. exact IH.
  - cbn [plies_of filter]. fold (plies_of (clean_row pr r)) (plies_of r). now rewrite IH.
Qed.
Lemma clean_self pr : clean_row pr pr = plies_of pr.
Proof. induction pr as [|x pr IH]; [reflexivity|]. rewrite clean_row_cons, kept_case. cbn [plies_of filter]. fold (plies_of pr). rewrite IH. reflexivity. Qed.
Lemma clean_drops pr : forall r t, drops_from r t -> length t = length pr -> drops_from (clean_row pr r) (clean_row pr t).
Proof.
  unfold drops_from. intros r t H. revert pr. induction H as [|x y r t E H IH]; intros [|z pr] L; cbn [length] in L; try discriminate; [constructor|].
  rewrite !clean_row_cons. destruct (kept z); [constructor; [exact E|]|]; apply IH; lia.
Qed.
Lemma combine_app {A B} (a c : list A) (b e : list B) : length a = length b -> List.combine (a ++ c) (b ++ e) = List.combine a b ++ List.combine c e.
Proof. revert b. induction a as [|x a IH]; intros [|y b] L; cbn in *; try discriminate; [reflexivity|]. f_equal. apply IH. lia. Qed.
Lemma combine_rev {A B} (a : list A) : forall b : list B, length a = length b -> List.combine (rev a) (rev b) = rev (List.combine a b).
Proof.
  induction a as [|x a IH]; intros [|y b] L; cbn [length] in L; try discriminate; [reflexivity|]. cbn [rev List.combine].
  rewrite combine_app by (rewrite !rev_length; lia). rewrite IH by lia. reflexivity.
Qed.
Lemma filter_rev {A} (f : A -> bool) l : filter f (rev l) = rev (filter f l).
Proof. induction l as [|x l IH]; [reflexivity|]. cbn [rev filter]. rewrite filter_app, IH. cbn [filter]. destruct (f x); cbn [rev]; [reflexivity|apply app_nil_r]. Qed.
Lemma clean_mirror pr r : length r = length pr -> palindrome pr -> palindrome r -> palindrome (clean_row pr r).
Proof.
  intros L P Q. unfold palindrome, clean_row in *. rewrite <- map_rev, <- filter_rev, <- combine_rev by lia. now rewrite <- P, <- Q.
Qed.
Lemma plies_mirror r : palindrome r -> palindrome (plies_of r).
Proof. unfold palindrome, plies_of. intros P. rewrite <- filter_rev. now rewrite <- P. Qed.

(* ------------------------------------------------------------------ *)
(** ** thin to thick *)
Section Thick.
Variable c : cons.
Variable st : strip.
Variable lampam : list Z -> list Q.
Variable dist : list Q -> Q.
Variables (targets weights : list (list Q)) (panel_weightings : list Q).
Variables (plies : list Z) (ref : nat) (base : list (list Z)).
Local Notation du := (drop_unit (sym c)).
Local Notation nref := (nth ref plies 0).
Let ss_ref := nth ref base [].
Hypothesis Hset : ~ In dropped (set_of_angles c).

Definition checked2 (ss : list Z) : Prop :=
  breaks_diso c ss = Ok false /\ breaks_contig c ss = Ok false /\
  (rule_10_percent c = true -> rule_10_Abdalla c = true -> (dist (lampam ss) == 0)%Q).
Definition skew2 (q : list Z) (a : Z) : Z :=
  match q with [] => 0 | x :: _ => if a =? x then du else if a =? - x then - du else 0 end.
Definition exact_bal2 (q : list Z) (ss : list Z) : Prop :=
  bal c = true -> forall a, off_axis a -> excess_at a ss = excess_at a ss_ref + skew2 q a.
Definition near_bal2 (ss : list Z) : Prop :=
  bal c = true -> forall a, off_axis a -> Z.abs (excess_at a ss - excess_at a ss_ref) <= du.
Lemma exact_near2 q r : exact_bal2 q r -> near_bal2 r.
Proof.
  intros H B a Ha. rewrite (H B a Ha). unfold skew2, drop_unit. destruct q as [|x q]; [destruct (sym c); lia|].
  destruct (a =? x), (a =? - x), (sym c); lia.
Qed.
Definition outer_kept (ss : list Z) : Prop :=
  (covering c = true -> firstn (n_covering c) ss = firstn (n_covering c) ss_ref /\ lastn (n_covering c) ss = lastn (n_covering c) ss_ref) /\
  (forall a, In a ss -> In a ss_ref \/ In a (set_of_angles c)).
(** the facts about a panel thicker than the reference panel, whatever the width of the table *)
Definition built (ss : list Z) : Prop := checked2 ss /\ near_bal2 ss /\ outer_kept ss.

Definition width (k : nat) : Z := nref + du * Z.of_nat k.
Definition shaped (k : nat) (r : list Z) : Prop := Z.of_nat (length r) = width k /\ (sym c = true -> palindrome r).
Definition some_row (x : layout) (j : nat) (r : list Z) : Prop := nth j (l_pdl x) None = Some r.
Definition present (k j : nat) : Prop := (j < length plies)%nat /\ ((j <= ref)%nat \/ nth (j - 1) plies 0 < width k).

Definition thick_inv (k : nat) (x : layout) : Prop :=
  length (l_pdl x) = length plies /\
  (forall j, present k j -> exists r, some_row x j r /\ shaped k r /\
     ((j <= ref)%nat -> plies_of r = plies_of (nth j base [])) /\
     ((ref < j)%nat -> zlen (plies_of r) = Z.min (nth j plies 0) (width k) /\ built (plies_of r))) /\
  (forall j r t, present k (S j) -> some_row x j r -> some_row x (S j) t -> drops_from r t) /\
  (exists j r, (ref <= j < length plies)%nat /\ ((ref < j)%nat -> nth (j - 1) plies 0 < width k) /\ width k <= nth j plies 0 /\
     some_row x j r /\ ~ In dropped r /\ exact_bal2 (l_queue x) r /\ outer_kept r).

Lemma thick_positions_in n ps k : thick_positions c n = Ok ps -> In k ps ->
  (k <= n)%nat /\ (sym c = true -> (2 * k <= n)%nat) /\ (covering c = true -> (n_covering c <= k)%nat /\ (sym c = false -> (k + n_covering c <= n)%nat)).
Proof using.
  clear Hset. intros H I. unfold thick_positions in H.
  assert (G : forall m, In k (if sym c then seq m (n / 2 + 1 - m) else seq m (n + 1 - m - m)) -> (k <= n)%nat /\ (sym c = true -> (2 * k <= n)%nat) /\ (m <= k)%nat /\ (sym c = false -> (k + m <= n)%nat)).
  { intros m G. destruct (sym c); apply in_seq in G.
    - pose proof (Nat.div_mod_eq n 2). repeat split; try lia; discriminate.
    - repeat split; try lia; discriminate. }
  destruct (covering c).
  - destruct (Nat.eqb_spec (n_covering c) 1) as [E|E]; [injection H as <-; destruct (G 1%nat I) as (A & B & C & D); rewrite E; auto|].
    destruct (Nat.eqb_spec (n_covering c) 2) as [E'|E']; [injection H as <-; destruct (G 2%nat I) as (A & B & C & D); rewrite E'; auto|discriminate].
  - injection H as <-. destruct (G 0%nat I) as (A & B & C & D). repeat split; auto; discriminate.
Qed.

Lemma exact_add q q' r n k a : a <> -1 -> ~ In dropped r -> exact_bal2 q r ->
  (bal c = true -> queue_allows q a = true /\ q' = next_queue c q a) -> exact_bal2 q' (widen c n k a r).
Proof using.
  clear Hset. intros Ha Hr E Q B t Ht. destruct (Q B) as (Qa & ->). unfold excess_at.
  assert (W : forall y, count y (widen c n k a r) = count y r + (if y =? a then du else 0)).
  { intros y. rewrite <- (no_drop_plies (widen c n k a r)).
    - rewrite widen_count by exact Ha. now rewrite no_drop_plies.
    - intros X. apply widen_in in X. destruct X as [X|X]; [now elim Ha|now elim Hr]. }
  rewrite !W. specialize (E B t Ht). unfold excess_at in E. unfold next_queue. rewrite B. unfold off_axis in Ht. unfold skew2 in *.
  destruct q as [|x q].
  - destruct (Z.eqb_spec a 0) as [Z0|Z0]; cbn [orb]; [destruct (Z.eqb_spec t a), (Z.eqb_spec (- t) a); lia|].
    destruct (Z.eqb_spec a 90) as [Z9|Z9]; cbn [orb]; [destruct (Z.eqb_spec t a), (Z.eqb_spec (- t) a); lia|].
    destruct (Z.eqb_spec t a), (Z.eqb_spec (- t) a), (Z.eqb_spec t (- a)); lia.
  - cbn [queue_allows] in Qa. apply Z.eqb_eq in Qa. rewrite Qa.
    destruct (Z.eqb_spec t (- x)), (Z.eqb_spec (- t) (- x)), (Z.eqb_spec t x); lia.
Qed.

Lemma widen_rows_ok i n k : forall t t', widen_rows c i n k t = Ok t' ->
  length t' = length t /\ (forall j, (i <= j)%nat -> nth j t' None = nth j t None) /\
  (forall j, (j < i)%nat -> exists r, nth j t None = Some r /\ nth j t' None = Some (widen c n k (-1) r)).
Proof using.
  clear Hset. induction i as [|i IH]; intros t t' H.
  - cbn [widen_rows] in H. assert (t = t') as -> by (destruct t as [|[x|] t]; injection H as <-; reflexivity). repeat split; auto. intros; lia.
  - destruct t as [|[x|] t]; cbn [widen_rows] in H; try discriminate. destruct (widen_rows c i n k t) as [y|] eqn:E; [|discriminate]. cbn [bind] in H. injection H as <-.
    destruct (IH _ _ E) as (A & B & D). split; [cbn [length]; lia|]. split.
    + intros [|j] Hj; [lia|]. cbn [nth]. apply B. lia.
    + intros [|j] Hj; cbn [nth]; [exists x; auto|]. apply D. lia.
Qed.

Lemma thick_child_ok n s m k a x i : s_panel s = Z.of_nat (S i) -> length (l_pdl (fst m)) = length plies -> (S i < length plies)%nat ->
  thick_child c st n s m (k, a) = Ok (Some x) ->
  exists r, nth (if s_new s then i else S i) (l_pdl (fst m)) None = Some r /\
    length (l_pdl x) = length plies /\ nth (S i) (l_pdl x) None = Some (widen c n k a r) /\
    (forall j, (j <= i)%nat -> exists t, nth j (l_pdl (fst m)) None = Some t /\ nth j (l_pdl x) None = Some (widen c n k (-1) t)) /\
    l_last x = k /\
    (bal c = true -> queue_allows (l_queue (fst m)) a = true /\ l_queue x = next_queue c (l_queue (fst m)) a).
Proof using.
  clear Hset. intros Ep Hl Hi H. unfold thick_child in H. rewrite Ep in H.
  match type of H with (if ?b then _ else _) = _ => destruct b eqn:Q; [discriminate|] end.
  match type of H with bind ?z _ = _ => destruct z as [pdl0|] eqn:E0; [|discriminate] end. cbn [bind] in H.
  match type of H with bind ?z _ = _ => destruct z as [pdl1|] eqn:E1; [|discriminate] end. cbn [bind] in H.
  match type of H with bind ?z _ = _ => destruct z as [r|] eqn:E2; [|discriminate] end. cbn [bind] in H.
  match type of H with bind ?z _ = _ => destruct z as [pdl|] eqn:E3; [|discriminate] end. cbn [bind] in H.
  match type of H with bind ?z _ = _ => destruct z as [sp|] eqn:E4; [|discriminate] end. cbn [bind] in H.
  injection H as <-. cbn [l_pdl l_last l_queue]. rewrite Nat2Z.id in E1. apply widen_rows_ok in E1. destruct E1 as (L1 & K1 & W1).
  assert (L0 : length pdl0 = length plies /\ nth (S i) pdl0 None = nth (if s_new s then i else S i) (l_pdl (fst m)) None /\ forall j, (j <= i)%nat -> nth j pdl0 None = nth j (l_pdl (fst m)) None).
  { destruct (s_new s); [|injection E0 as <-; auto].
    destruct (row_at (l_pdl (fst m)) (Z.of_nat (S i) - 1)) as [r0|] eqn:Er; [|discriminate]. cbn [bind] in E0.
    replace (Z.of_nat (S i) - 1) with (Z.of_nat i) in Er by lia. apply row_at_nat in Er; [|lia]. rewrite set_row_nat in E0 by lia. assert (pdl0 = upd (S i) (Some r0) (l_pdl (fst m))) as -> by congruence.
    rewrite upd_length. split; [lia|]. split.
    - rewrite nth_upd, Nat.eqb_refl. destruct (Nat.ltb_spec (S i) (length (l_pdl (fst m)))); [cbn [andb]; congruence|lia].
    - intros j Hj. rewrite nth_upd. destruct (Nat.eqb_spec (S i) j); [lia|reflexivity]. }
  destruct L0 as (L0 & P0 & J0).
  apply row_at_nat in E2; [|lia]. rewrite set_row_nat in E3 by lia. assert (pdl = upd (S i) (Some (widen c n k a r)) pdl1) as -> by congruence. rewrite K1 in E2 by lia.
  exists r. split; [congruence|]. split; [rewrite upd_length; lia|]. split.
  - rewrite nth_upd, Nat.eqb_refl. destruct (Nat.ltb_spec (S i) (length pdl1)); [reflexivity|lia].
  - split; [|split; [reflexivity|]].
    + intros j Hj. destruct (W1 j ltac:(lia)) as (t & T1 & T2). exists t. rewrite <- J0 by exact Hj. split; [exact T1|].
      rewrite nth_upd. destruct (Nat.eqb_spec (S i) j); [lia|]. exact T2.
    + intros B. rewrite B in Q. cbn [andb] in Q. apply negb_false_iff in Q. auto.
Qed.

Lemma thick_evaluate_ok s m x v : thick_evaluate c lampam dist targets weights panel_weightings s m x = Ok (Some v) ->
  exists row, row_at (l_pdl x) (s_panel s) = Ok row /\ checked2 (plies_of row).
Proof using.
  clear Hset. intros H. unfold thick_evaluate in H. cbv zeta in H.
  match type of H with bind ?z _ = _ => destruct z as [row|] eqn:Er; [|discriminate] end. cbn [bind] in H. exists row. split; [reflexivity|].
  rewrite kept_plies in H.
  destruct (breaks_diso c (plies_of row)) as [[|]|] eqn:Ed; try discriminate. cbn [bind] in H.
  destruct (breaks_contig c (plies_of row)) as [[|]|] eqn:Eb; try discriminate. cbn [bind] in H.
  repeat match type of H with
  | bind (breaks_10 _ _ _ _) _ = _ => fail 1
  | bind ?z _ = _ => destruct z; [|discriminate]; cbn [bind] in H
  end.
  match type of H with bind ?z _ = _ => destruct z as [[|]|] eqn:Et; try discriminate end.
  split; [exact Ed|]. split; [exact Eb|]. intros R A. unfold breaks_10 in Et. rewrite R, A in Et. injection Et as Et. apply negb_false_iff in Et. apply Qeq_bool_iff, Et.
Qed.

Hypothesis Hs : StronglySorted Z.lt plies.
Hypothesis Href : (ref < length plies)%nat.
Hypothesis Hpar : sym c = true -> forall i, (i < length plies)%nat -> Z.even (nth i plies 0) = Z.even (nth ref plies 0).

Lemma outer_widen n k a r : In a (set_of_angles c) -> Z.of_nat n = Z.of_nat (length r) -> (k <= n)%nat -> (sym c = true -> (2 * k <= n)%nat) ->
  (covering c = true -> (n_covering c <= k)%nat /\ (sym c = false -> (k + n_covering c <= n)%nat)) ->
  outer_kept r -> outer_kept (widen c n k a r).
Proof using.
  clear Hset Hs Href Hpar. intros Ia Hn H1 H2 H3 (O & O'). split; [|intros y Hy; apply widen_in in Hy; destruct Hy as [->|Hy]; [now right|apply O', Hy]]. intros V. destruct (O V) as (O1 & O2). destruct (H3 V) as (H4 & H5). rewrite <- O1, <- O2. split.
  - apply widen_first; [lia|lia|]. intros Y. specialize (H2 Y). lia.
  - apply widen_last.
    + destruct (sym c) eqn:Y; [specialize (H2 eq_refl); lia|specialize (H5 eq_refl); lia].
    + intros Y. specialize (H2 Y). lia.
Qed.

Lemma thick_inherits k s : thick_row (sym c) plies ref k s -> 0 <= nref ->
  inherits (thick_branch c st plies ref) (thick_evaluate c lampam dist targets weights panel_weightings) thick_inv (fun _ _ => True) k s.
Proof.
  intros (i & Hi & Hi2 & S1 & S2 & S3 & S4 & S5 & S6 & S7 & S8) Hpos m l x v J _ Hb Hx He. split; [|exact I].
  unfold thick_branch in Hb. set (n := plies_at c plies ref k) in *.
  destruct (thick_positions c n) as [ps|] eqn:Ep; [|discriminate]. cbn [bind] in Hb.
  destruct (children_in _ _ _ _ Hb Hx) as ((p & a) & Hp & Hc). apply in_prod_iff in Hp. destruct Hp as (Hp & Hina).
  assert (Ha : a <> -1) by (intros ->; apply Hset, Hina).
  destruct (thick_positions_in n ps p Ep Hp) as (P1 & P2 & P3).
  destruct J as (L & G & DR & (j0 & r0 & J1 & J2 & J3 & J4 & J5 & J6 & J7)).
  destruct (thick_child_ok n s m p a x i S1 L Hi2 Hc) as (r & Er & Lx & Nx & Wx & El & Eq).
  destruct (thick_evaluate_ok s m x v He) as (row' & Er' & Ck). rewrite S1 in Er'. apply row_at_nat in Er'; [|lia].
  rewrite Nx in Er'. assert (row' = widen c n p a r) as -> by congruence. clear Er'.
  set (b := width k) in *. assert (B' : width (S k) = b + du) by (unfold b, width; lia).
  assert (Bs : s_before s = b) by (unfold b, width; exact S3). rewrite Bs in *. clear S3. rewrite S4 in S5. clear S4.
  assert (Hd : 0 < du) by (unfold drop_unit; destruct (sym c); lia).
  assert (Hn : Z.of_nat n = b) by (unfold n, plies_at, b, width; lia).
  assert (MO : forall u e, (u < e < length plies)%nat -> nth u plies 0 + du <= nth e plies 0) by exact (mono (sym c) plies ref Hs Href Hpar).
  assert (ML : forall u e, (u <= e < length plies)%nat -> nth u plies 0 <= nth e plies 0).
  { intros u e Hue. destruct (Nat.eq_dec u e) as [->|]; [lia|]. specialize (MO u e ltac:(lia)). lia. }
  (* the source row is the current one *)
  assert (Src : j0 = (if s_new s then i else S i)).
  { destruct (s_new s) eqn:W.
    - assert (Eb : b = nth i plies 0) by (apply S7; reflexivity).
      destruct (lt_eq_lt_dec j0 i) as [[X|X]|X]; [|exact X|].
      + pose proof (MO j0 i ltac:(lia)). lia.
      + specialize (J2 ltac:(lia)). pose proof (ML i (j0 - 1)%nat ltac:(lia)). lia.
    - assert (Eb : nth i plies 0 < b) by (assert (b <> nth i plies 0) by (intros X; apply S7 in X; discriminate); lia).
      destruct (lt_eq_lt_dec j0 (S i)) as [[X|X]|X]; [|exact X|].
      + pose proof (ML j0 i ltac:(lia)). lia.
      + specialize (J2 ltac:(lia)). pose proof (ML (S i) (j0 - 1)%nat ltac:(lia)). lia. }
  assert (r = r0) as -> by (unfold some_row in J4; rewrite Src in J4; congruence).
  assert (Pr : present k j0).
  { split; [lia|]. destruct (le_lt_dec j0 ref); [now left|]. right. apply J2. assumption. }
  destruct (G j0 Pr) as (r1 & G1 & (G2 & G3) & _). assert (r1 = r0) as -> by (unfold some_row in *; congruence). fold b in G2.
  assert (Hlen : length r0 = n) by lia.
  assert (NoD : ~ In dropped (widen c n p a r0)) by (intros X; apply widen_in in X; destruct X as [X|X]; [now elim Ha|now elim J5]).
  assert (Out : outer_kept (widen c n p a r0)) by (apply outer_widen; auto; lia).
  assert (Ex : exact_bal2 (l_queue x) (widen c n p a r0)) by (eapply exact_add; eauto).
  assert (Shp : forall y t, shaped k t -> shaped (S k) (widen c n p y t)).
  { intros y t (T1 & T2). split; [rewrite widen_length, B'; fold b in T1; lia|]. intros Y. fold b in T1. replace n with (length t) in * by lia. apply widen_mirror; [exact Y|apply P2, Y|apply T2, Y]. }
  assert (Old : forall j, (j <= i)%nat -> present k j).
  { intros j Hj. split; [lia|]. destruct (le_lt_dec j ref); [now left|]. right. fold b. pose proof (MO (j - 1)%nat j ltac:(lia)). pose proof (ML j i ltac:(lia)). lia. }
  assert (New : forall j, present (S k) j -> (j <= S i)%nat).
  { intros j (Hj & [Hj'|Hj']); [lia|]. rewrite B' in Hj'. destruct (le_lt_dec j (S i)); [assumption|]. pose proof (ML (S i) (j - 1)%nat ltac:(lia)). lia. }
  unfold thick_inv. split; [exact Lx|]. split; [|split].
  - intros j Pj. pose proof (New j Pj) as Hj. destruct (Nat.eq_dec j (S i)) as [->|Hne].
    + exists (widen c n p a r0). split; [exact Nx|]. split; [apply Shp; split; assumption|]. split; [lia|]. intros _.
      rewrite (no_drop_plies _ NoD). rewrite (no_drop_plies _ NoD) in Ck. split.
      * unfold zlen. rewrite widen_length, B'. lia.
      * split; [exact Ck|]. split; [eapply exact_near2, Ex|exact Out].
    + destruct (Wx j ltac:(lia)) as (t & T1 & T2). destruct (G j (Old j ltac:(lia))) as (t1 & U1 & U2 & U3 & U4).
      assert (t1 = t) as -> by (unfold some_row in U1; congruence).
      exists (widen c n p (-1) t). split; [exact T2|]. split; [apply Shp, U2|]. rewrite widen_plies. split; [exact U3|]. intros Hj'. destruct (U4 Hj') as (U5 & U6).
      split; [|exact U6]. rewrite U5, B'. fold b. pose proof (ML j i ltac:(lia)). lia.
  - intros j r' t' Pj R1 R2. pose proof (New (S j) Pj) as Hj. destruct (Wx j ltac:(lia)) as (t & T1 & T2). assert (r' = widen c n p (-1) t) as -> by (unfold some_row in R1; congruence).
    destruct (Nat.eq_dec j i) as [->|Hne].
    + assert (t' = widen c n p a r0) as -> by (unfold some_row in R2; congruence). apply widen_drops.
      destruct (s_new s).
      * assert (t = r0) as -> by congruence. apply drops_refl.
      * subst j0. apply (DR i); [exact Pr|exact T1|exact Er].
    + destruct (Wx (S j) ltac:(lia)) as (t2 & T3 & T4). assert (t' = widen c n p (-1) t2) as -> by (unfold some_row in R2; congruence). apply widen_drops.
      apply (DR j); [apply Old; lia|exact T1|exact T3].
  - exists (S i), (widen c n p a r0). rewrite B'. split; [lia|]. split; [intros _; replace (S i - 1)%nat with i by lia; lia|]. split; [lia|].
    split; [exact Nx|]. split; [exact NoD|]. split; [exact Ex|exact Out].
Qed.

(** *** start *)
Hypothesis Hbase : (ref < length base)%nat.
Hypothesis Hrow : forall j, (j <= ref)%nat -> Z.of_nat (length (nth j base [])) = nref /\ (sym c = true -> palindrome (nth j base [])).
Hypothesis Hbl : forall j, (j < ref)%nat -> drops_from (nth j base []) (nth (S j) base []).
Hypothesis Hnod : ~ In dropped ss_ref.

Lemma thick_start_inv lps ssr m : thick_start c plies ref base lps ssr = Ok m -> thick_inv 0 (fst m).
Proof.
  intros H. unfold thick_start in H. destruct (count_plies _ _ _) as [counts|]; [|discriminate]. cbn [bind] in H.
  match type of H with Ok ?z = Ok _ => assert (z = m) as <- by congruence end. cbn [fst].
  assert (MO : forall a e, (a < e < length plies)%nat -> nth a plies 0 + du <= nth e plies 0) by exact (mono (sym c) plies ref Hs Href Hpar).
  assert (Hd : 0 < du) by (unfold drop_unit; destruct (sym c); lia).
  assert (W0 : width 0 = nref) by (unfold width; lia).
  match goal with |- context [{| l_pdl := ?t |}] => set (tb := t) end.
  assert (Lf : length (map Some (firstn (S ref) base)) = S ref) by (rewrite map_length, firstn_length; lia).
  assert (T1 : forall j, (j <= ref)%nat -> nth j tb None = Some (nth j base [])).
  { intros j Hj. unfold tb. rewrite app_nth1 by (rewrite Lf; lia). rewrite (nth_indep _ None (Some [])) by (rewrite Lf; lia). rewrite map_nth. f_equal. apply nth_firstn. lia. }
  assert (Pr : forall j, present 0 j -> (j <= ref)%nat).
  { intros j (Hj & [Hj'|Hj']); [exact Hj'|]. rewrite W0 in Hj'. destruct (le_lt_dec j ref) as [Q|Q]; [exact Q|]. destruct (Nat.eq_dec (j - 1) ref) as [E|E]; [rewrite E in Hj'; lia|]. pose proof (MO ref (j - 1)%nat ltac:(lia)). lia. }
  unfold thick_inv, some_row. cbn [l_pdl l_queue]. split; [|split; [|split]].
  - unfold tb. rewrite app_length, Lf, repeat_length. lia.
  - intros j Pj. apply Pr in Pj. exists (nth j base []). split; [apply T1, Pj|]. destruct (Hrow j Pj) as (R1 & R2). split; [split; [rewrite W0; exact R1|exact R2]|]. split; [reflexivity|lia].
  - intros j r t Pj R1 R2. apply Pr in Pj. rewrite T1 in R1, R2 by lia. injection R1 as <-. injection R2 as <-. apply Hbl. lia.
  - exists ref, ss_ref. rewrite W0. split; [lia|]. split; [lia|]. split; [lia|]. split; [apply T1; lia|]. split; [exact Hnod|]. split; [|split; auto].
    intros B a Ha. cbn [skew2]. lia.
Qed.
Lemma all_rows_ok {A} (t : list (option A)) : forall r, all_rows t = Ok r -> t = map Some r.
Proof using.
  clear. induction t as [|[x|] t IH]; intros r H; cbn [all_rows] in H; [injection H as <-; reflexivity| |discriminate].
  destruct (all_rows t) as [y|]; [|discriminate]. cbn [bind] in H. injection H as <-. cbn [map]. f_equal. apply IH. reflexivity.
Qed.

Definition thickened (sst' : list (list Z)) (j : nat) : Prop :=
  let r := nth j sst' [] in
  zlen r = last plies 0 /\ (sym c = true -> palindrome r) /\ ((j <= ref)%nat -> plies_of r = plies_of (nth j base [])) /\
  ((ref < j)%nat -> zlen (plies_of r) = nth j plies 0 /\ built (plies_of r)).

Lemma thick_search local_limit global_limit steps m nodes best : 0 <= nref ->
  thick_table (sym c) plies ref = Ok (Some steps) -> thick_inv 0 (fst m) ->
  search (thick_branch c st plies ref) (thick_evaluate c lampam dist targets weights panel_weightings) never_same local_limit global_limit 0 steps [m] = Ok (Some nodes) ->
  In best nodes -> forall sst', all_rows (l_pdl (fst best)) = Ok sst' ->
  length sst' = length plies /\ blended sst' /\ forall j, (j < length plies)%nat -> thickened sst' j.
Proof.
  intros Hpos HT Hm Es Hin sst' Ha. destruct (thick_table_spec (sym c) plies ref Hs Href Hpar) as (T0 & T1).
  assert (Hlt : (S ref < length plies)%nat) by (destruct (Nat.eq_dec (S ref) (length plies)) as [E|E]; [rewrite T0 in HT by exact E; discriminate|lia]).
  destruct (T1 Hlt) as (t & Et & Lt & Rt). rewrite HT in Et. injection Et as <-.
  apply (search_in _ _ _ _ _ thick_inv (fun _ _ => True)) in Es.
  2: { intros j s Hj. assert (j < length steps)%nat by (apply nth_error_Some; congruence). destruct (Rt j H) as (s' & E' & R'). assert (s' = s) as -> by congruence. apply thick_inherits; assumption. }
  2: { constructor; [|constructor]. split; [exact Hm|exact I]. }
  destruct Es as (_ & Fr). cbn [Nat.add] in Fr. rewrite Forall_forall in Fr. destruct (Fr best Hin) as (J & _). clear Fr.
  destruct J as (JL & JG & JD & _). apply all_rows_ok in Ha. rewrite Ha in JL. rewrite map_length in JL.
  assert (W : width (length steps) = last plies 0) by (unfold width; unfold zlen in Lt; lia).
  assert (MO : forall a e, (a < e < length plies)%nat -> nth a plies 0 + du <= nth e plies 0) by exact (mono (sym c) plies ref Hs Href Hpar).
  assert (Hd : 0 < du) by (unfold drop_unit; destruct (sym c); lia).
  assert (LN : last plies 0 = nth (length plies - 1) plies 0) by (apply (last_nth (sym c) plies ref Href); intros E; rewrite E in Href; cbn in Href; lia).
  assert (Pr : forall j, (j < length plies)%nat -> present (length steps) j).
  { intros j Hj. split; [exact Hj|]. destruct (le_lt_dec j ref); [now left|]. right. rewrite W, LN. pose proof (MO (j - 1)%nat (length plies - 1)%nat ltac:(lia)). lia. }
  assert (Nn : forall j, (j < length plies)%nat -> nth j (l_pdl (fst best)) None = Some (nth j sst' [])).
  { intros j Hj. rewrite Ha. rewrite (nth_indep _ None (Some [])) by (rewrite map_length; lia). apply map_nth. }
  split; [exact JL|]. split.
  - intros j Hj. rewrite JL in Hj. apply (JD j); [apply Pr, Hj|apply Nn; lia|apply Nn; lia].
  - intros j Hj. destruct (JG j (Pr j Hj)) as (r & R1 & (R2 & R3) & R4 & R5). unfold some_row in R1. rewrite Nn in R1 by exact Hj. injection R1 as R1.
    unfold thickened. cbv zeta. rewrite R1. split; [unfold zlen; rewrite R2, W; reflexivity|]. split; [exact R3|]. split; [exact R4|].
    intros Hj'. destruct (R5 Hj') as (R6 & R7). split; [|exact R7]. rewrite R6, W, LN. destruct (Nat.eq_dec j (length plies - 1)) as [->|E]; [lia|]. pose proof (MO j (length plies - 1)%nat ltac:(lia)). lia.
Qed.
End Thick.

Section Whole.
Variable c : cons.
Variable st : strip.
Variable lampam : list Z -> list Q.
Variable dist : list Q -> Q.
Variables (targets weights : list (list Q)) (panel_weightings : list Q).
Variables (plies : list Z) (ref : nat) (sst : list (list Z)).
Let pdl_ref := nth ref sst [].
Hypothesis Hset : ~ In dropped (set_of_angles c).
Hypothesis Hs : StronglySorted Z.lt plies.
Hypothesis Href : (ref < length plies)%nat.
Hypothesis Hpar : sym c = true -> forall i, (i < length plies)%nat -> Z.even (nth i plies 0) = Z.even (nth ref plies 0).
Hypothesis Hlen : length sst = length plies.
Hypothesis Hbl : forall j, (j < ref)%nat -> drops_from (nth j sst []) (nth (S j) sst []).
Hypothesis Hmir : sym c = true -> forall j, (j <= ref)%nat -> palindrome (nth j sst []).
Hypothesis Hcnt : zlen (plies_of pdl_ref) = nth ref plies 0.

Lemma chain : forall e j, (j + e = ref)%nat -> drops_from (nth j sst []) pdl_ref.
Proof using Hbl Hlen Href.
  induction e as [|e IH]; intros j Hj; [replace j with ref by lia; apply drops_refl|].
  eapply drops_trans; [apply Hbl; lia|]. apply IH. lia.
Qed.
Lemma clean_nth j : (j < length sst)%nat -> nth j (clean pdl_ref sst) [] = clean_row pdl_ref (nth j sst []).
Proof. intros Hj. unfold clean. rewrite (nth_indep _ [] (clean_row pdl_ref [])) by (rewrite map_length; exact Hj). apply (map_nth (clean_row pdl_ref)). Qed.

Lemma base_facts :
  (forall j, (j <= ref)%nat -> plies_of (nth j (clean pdl_ref sst) []) = plies_of (nth j sst [])) /\
  nth ref (clean pdl_ref sst) [] = plies_of pdl_ref /\
  (forall j, (j <= ref)%nat -> Z.of_nat (length (nth j (clean pdl_ref sst) [])) = nth ref plies 0 /\ (sym c = true -> palindrome (nth j (clean pdl_ref sst) []))) /\
  (forall j, (j < ref)%nat -> drops_from (nth j (clean pdl_ref sst) []) (nth (S j) (clean pdl_ref sst) [])) /\
  ~ In dropped (nth ref (clean pdl_ref sst) []).
Proof.
  assert (C : forall j, (j <= ref)%nat -> drops_from (nth j sst []) pdl_ref) by (intros j Hj; apply (chain (ref - j)); lia).
  assert (R : nth ref (clean pdl_ref sst) [] = plies_of pdl_ref) by (rewrite clean_nth by lia; apply clean_self).
  split; [|split; [exact R|split; [|split]]].
  - intros j Hj. rewrite clean_nth by lia. apply clean_plies, C, Hj.
  - intros j Hj. rewrite clean_nth by lia. pose proof (drops_length _ _ (C j Hj)) as L. split.
    + rewrite clean_length by exact L. exact Hcnt.
    + intros Y. apply clean_mirror; [exact L|apply Hmir; auto|apply Hmir; auto].
  - intros j Hj. rewrite !clean_nth by lia. apply clean_drops; [apply Hbl, Hj|]. apply (drops_length _ _ (C (S j) Hj)).
  - rewrite R. unfold plies_of. rewrite filter_In. intros (_ & X). rewrite Z.eqb_refl in X. discriminate.
Qed.

Definition thick_panel (sst' : list (list Z)) (j : nat) : Prop :=
  let r := nth j sst' [] in let ss := plies_of r in let ss_ref := plies_of pdl_ref in
  zlen r = last plies 0 /\ (sym c = true -> palindrome r) /\ ((j <= ref)%nat -> ss = plies_of (nth j sst [])) /\
  ((ref < j)%nat -> zlen ss = nth j plies 0 /\ checked2 c lampam dist ss /\
     (bal c = true -> forall a, off_axis a -> Z.abs (excess_at a ss - excess_at a ss_ref) <= drop_unit (sym c)) /\
     (covering c = true -> firstn (n_covering c) ss = firstn (n_covering c) ss_ref /\ lastn (n_covering c) ss = lastn (n_covering c) ss_ref) /\
     (forall a, In a ss -> In a ss_ref \/ In a (set_of_angles c))).

Lemma thick_result local_limit global_limit table lps ss done sst' lps' ss' : 0 <= nth ref plies 0 ->
  thick_table (sym c) plies ref = Ok table -> (forall j, (j <= ref)%nat -> nth j ss [] = plies_of (nth j sst [])) ->
  repair_thin_to_thick c st lampam dist targets weights panel_weightings plies ref local_limit global_limit table (sst, lps, ss) = Ok (done, (sst', lps', ss')) ->
  (done = false -> lps' = lps /\ ss' = ss) /\
  (done = true -> length sst' = length plies /\ blended sst' /\
     forall j, (j < length plies)%nat -> thick_panel sst' j /\ nth j ss' [] = plies_of (nth j sst' [])).
Proof.
  intros Hpos HT Hss H. destruct base_facts as (B1 & B2 & B3 & B4 & B5).
  destruct (thick_table_spec (sym c) plies ref Hs Href Hpar) as (T0 & T1).
  assert (LN : last plies 0 = nth (length plies - 1) plies 0) by (apply (last_nth (sym c) plies ref Href); intros E; rewrite E in Href; cbn in Href; lia).
  unfold repair_thin_to_thick in H. destruct (row ss ref) as [ssr|]; [|discriminate]. cbn [bind] in H.
  destruct (row sst ref) as [pr|] eqn:Epr; [|discriminate]. cbn [bind] in H.
  assert (pr = pdl_ref) as ->. { unfold row in Epr. destruct (nth_error sst ref) as [y|] eqn:Ey; [|discriminate]. injection Epr as ->. unfold pdl_ref. symmetry. apply nth_error_nth, Ey. }
  destruct table as [steps|].
  - destruct (thick_start c plies ref (clean pdl_ref sst) lps ssr) as [m|] eqn:Em; [|discriminate]. cbn [bind] in H.
    match type of H with bind ?z _ = _ => destruct z as [[nodes|]|] eqn:Es; [| |discriminate] end; cbn [bind] in H.
    2: { injection H as <- _ <- <-. split; [auto|discriminate]. }
    destruct (argmin _) as [k|] eqn:Ek; [|discriminate]. cbn [bind] in H. apply argmin_lt in Ek. rewrite map_length in Ek.
    set (best := nth k nodes m) in *.
    destruct (all_rows (l_pdl (fst best))) as [a1|] eqn:E1; [|discriminate]. cbn [bind] in H.
    destruct (all_rows (v_lampam (snd best))) as [a2|] eqn:E2; [|discriminate]. cbn [bind] in H.
    repeat match type of H with bind ?z _ = _ => destruct z; [|discriminate]; cbn [bind] in H end. injection H as <- <- <- <-.
    split; [discriminate|]. intros _.
    assert (Hb : (ref < length (clean pdl_ref sst))%nat) by (unfold clean; rewrite map_length; lia).
    pose proof (thick_start_inv c lampam dist plies ref (clean pdl_ref sst) Hs Href Hpar Hb B3 B4 B5 _ _ _ Em) as J0.
    destruct (thick_search c st lampam dist targets weights panel_weightings plies ref (clean pdl_ref sst) Hset Hs Href Hpar Hb B3 local_limit global_limit steps m nodes best Hpos HT J0 Es (nth_In _ _ Ek) a1 E1) as (R1 & R2 & R3).
    split; [exact R1|]. split; [exact R2|]. intros j Hj. destruct (R3 j Hj) as (A1 & A2 & A3 & A4). split.
    + unfold thick_panel. cbv zeta. split; [exact A1|]. split; [exact A2|]. split; [intros Hj'; rewrite (A3 Hj'); apply B1, Hj'|].
      intros Hj'. destruct (A4 Hj') as (C1 & C2 & C3 & C4 & C5). unfold near_bal2 in C3. rewrite B2 in C3, C4, C5. auto.
    + unfold convert_sst_to_ss. change (@nil Z) with (filter kept []) at 1. rewrite map_nth. reflexivity.
  - injection H as <- <- <- <-. split; [discriminate|]. intros _.
    assert (Er : S ref = length plies). { destruct (Nat.eq_dec (S ref) (length plies)) as [E|E]; [exact E|]. destruct (T1 ltac:(lia)) as (t & Et & _). congruence. }
    assert (Lc : length (clean pdl_ref sst) = length plies) by (unfold clean; rewrite map_length; exact Hlen).
    split; [exact Lc|]. split; [intros j Hj; apply B4; lia|]. intros j Hj.
    split; [|rewrite B1 by lia; apply Hss; lia].
    destruct (B3 j ltac:(lia)) as (D1 & D2). unfold thick_panel. cbv zeta. split; [unfold zlen; rewrite D1, LN; f_equal; lia|]. split; [exact D2|].
    split; [intros Hj'; apply B1, Hj'|lia].
Qed.
End Whole.
