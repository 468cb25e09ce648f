(* Properties_subset.v - C65 enumeration of subsets, C66 dynamic programming, C67 successive solutions *)
From Coq Require Import Sorting.Sorted.
From Verif Require Import Base SpecRedesign SubsetSum.
Local Open Scope Z_scope.

(* ------------------------------------------------------------------ *)
(** ** C65: counting and finding the subsets with a given sum *)

(** sum of the weights of a subset, given by its characteristic vector *)
Fixpoint weight_of (w : list Z) (s : list bool) : Z :=
  match w, s with x :: w', b :: s' => (if b then x else 0) + weight_of w' s' | _, _ => 0 end.

Lemma fold_selected w s a : fold_left (fun (t2 : Z) (p : Z * bool) => if snd p then t2 + fst p else t2) (List.combine w s) a = a + weight_of w s.
Proof.
  revert s a; induction w as [|x w IH]; intros [|b s] a; cbn [List.combine fold_left weight_of fst snd]; try lia.
  rewrite IH. destruct b; lia.
Qed.
Lemma selected_weight w s : selected w s = weight_of w s.
Proof. unfold selected. rewrite fold_selected. lia. Qed.

(** the subsets in the order of binary numbers *)
Fixpoint subsets (n : nat) : list (list bool) :=
  match n with O => [[]] | S k => map (cons false) (subsets k) ++ map (cons true) (subsets k) end.
Lemma subsets_spec n s : In s (subsets n) <-> length s = n.
Proof.
  revert s; induction n as [|n IH]; intros s; cbn [subsets].
  - split; [intros [<-|[]]; reflexivity|]. destruct s; [left; reflexivity|discriminate].
  - rewrite in_app_iff, !in_map_iff. split.
    + intros [[x [<- H]]|[x [<- H]]]; apply IH in H; cbn; lia.
    + destruct s as [|b s]; [discriminate|]. cbn. intros H. injection H as H. apply IH in H. destruct b; [right|left]; exists s; auto.
Qed.
Lemma NoDup_map_cons {A} (a : A) l : NoDup l -> NoDup (map (cons a) l).
Proof. intros H; induction H as [|x l N H IH]; cbn; constructor; auto. rewrite in_map_iff. intros [y [E Hy]]. injection E as ->. auto. Qed.
Lemma NoDup_app' {A} (l m : list A) : NoDup l -> NoDup m -> (forall x, In x l -> ~ In x m) -> NoDup (l ++ m).
Proof.
  intros H; induction H as [|x l N H IH]; intros M D; cbn; auto. constructor.
  - rewrite in_app_iff. intros [X|X]; [auto|]. apply (D x); [left; auto|auto].
  - apply IH; auto. intros y Hy. apply D. right; auto.
Qed.
Lemma subsets_NoDup n : NoDup (subsets n).
Proof.
  induction n as [|n IH]; cbn [subsets]; [repeat constructor; intros []|]. apply NoDup_app'; auto using NoDup_map_cons.
  intros x Hx Hy. apply in_map_iff in Hx, Hy. destruct Hx as [y [<- _]], Hy as [z [E _]]. discriminate.
Qed.
Lemma subsets_length n : length (subsets n) = (2 ^ n)%nat.
Proof. induction n as [|n IH]; [reflexivity|]. cbn [subsets Nat.pow]. rewrite app_length, !map_length, IH. lia. Qed.

(** successor of a binary number *)
Fixpoint succ (s : list bool) : option (list bool) :=
  match s with
  | [] => None
  | b :: s' => match succ s' with Some x => Some (b :: x) | None => if b then None else Some (true :: repeat false (length s')) end
  end.
Lemma carry_snoc r b : carry (r ++ [b]) = match carry r with (x, true) => (x ++ [b], true) | (x, false) => (x ++ [negb b], negb b) end.
Proof.
  induction r as [|a r IH]; cbn [app carry]; [destruct b; reflexivity|]. destruct a; [|reflexivity].
  rewrite IH. destruct (carry r) as [x [|]]; reflexivity.
Qed.
Lemma rev_repeat {A} (a : A) n : rev (repeat a n) = repeat a n.
Proof. induction n as [|n IH]; [reflexivity|]. cbn [repeat rev]. rewrite IH. symmetry. change (a :: repeat a n) with (repeat a (S n)). replace (S n) with (n + 1)%nat by lia. rewrite repeat_app. reflexivity. Qed.
Lemma carry_false r x : carry r = (x, false) -> x = repeat false (length r).
Proof.
  revert x; induction r as [|a r IH]; intros x; cbn [carry]; [intros H; injection H as <-; reflexivity|].
  destruct a; [|intros H; discriminate]. destruct (carry r) as [y [|]]; intros H; [discriminate|]. injection H as <-. cbn. rewrite (IH y eq_refl). reflexivity.
Qed.
Lemma carry_succ s : (let (x, f) := carry (rev s) in (rev x, f)) = match succ s with Some y => (y, true) | None => (repeat false (length s), false) end.
Proof.
  induction s as [|b s IH]; [reflexivity|]. cbn [rev succ length]. rewrite carry_snoc.
  destruct (carry (rev s)) as [x f] eqn:E. destruct f; destruct (succ s) as [y|]; try discriminate IH.
  - injection IH as <-. rewrite rev_app_distr. reflexivity.
  - apply carry_false in E. subst x. rewrite rev_length in *. destruct b; rewrite rev_app_distr, rev_repeat; reflexivity.
Qed.
Lemma subset_next_succ s rank : 0 <= rank ->
  subset_next s rank = match succ s with Some y => (y, rank + 1) | None => (repeat false (length s), -1) end.
Proof.
  intros H. unfold subset_next. destruct (Z.eqb_spec rank (-1)); [lia|]. pose proof (carry_succ s) as C.
  destruct (carry (rev s)) as [x f]. destruct (succ s); injection C as -> ->; reflexivity.
Qed.

(** consecutive elements *)
Fixpoint chain (x : list bool) (l : list (list bool)) : Prop :=
  match l with [] => succ x = None | y :: l' => succ x = Some y /\ chain y l' end.
Lemma chain_map b x l z m : chain x l -> (b = true /\ m = [] \/ b = false /\ m = (true :: repeat false (length x)) :: z) ->
  (forall y, In y l -> length y = length x) ->
  (m = [] \/ chain (true :: repeat false (length x)) z) -> chain (b :: x) (map (cons b) l ++ m).
Proof.
  revert x; induction l as [|y l IH]; intros x C B L H; cbn [map app chain succ] in *.
  - destruct B as [[-> ->]|[-> ->]]; cbn [chain succ]; [rewrite C; reflexivity|]. rewrite C. split; [reflexivity|]. destruct H; [discriminate|auto].
  - destruct C as [C1 C2]. rewrite C1. split; [reflexivity|]. assert (length y = length x) as E by (apply L; left; auto).
    apply IH; auto; rewrite ?E; auto. intros y' Hy'. apply L; right; auto.
Qed.
Lemma subsets_chain n : exists l, subsets n = repeat false n :: l /\ chain (repeat false n) l.
Proof.
  induction n as [|n [l [E C]]]; [exists []; split; reflexivity|]. cbn [subsets repeat]. rewrite E. cbn [map app]. eexists; split; [reflexivity|].
  assert (L : forall y, In y l -> length y = length (repeat false n)). { intros y Hy. rewrite repeat_length. apply subsets_spec. rewrite E. right; auto. }
  apply chain_map with (z := map (cons true) l); auto.
  - right. rewrite repeat_length. split; reflexivity.
  - right. rewrite repeat_length. rewrite <- (app_nil_r (map (cons true) l)). apply chain_map with (z := []); auto.
Qed.

(** number of the elements of a list with a property *)
Definition number_of {A} (P : A -> Prop) (k : Z) : Prop := exists l : list A, NoDup l /\ (forall x, In x l <-> P x) /\ k = zlen l.

Lemma count_loop_chain w t l x rank c fuel : 0 <= rank -> chain x l -> (length l < fuel)%nat ->
  count_loop fuel w t x rank c = Ok (c + zlen (filter (fun s => weight_of w s =? t) l)).
Proof.
  revert x rank c fuel; induction l as [|y l IH]; intros x rank c [|fuel] R C F; cbn [length] in F; try lia; cbn [count_loop chain filter] in *; rewrite subset_next_succ by auto.
  - rewrite C. cbn. f_equal. lia.
  - destruct C as [C1 C2]. rewrite C1. destruct (Z.eqb_spec (rank + 1) (-1)); [lia|]. rewrite IH by (auto; lia). rewrite selected_weight. f_equal.
    destruct (weight_of w y =? t); unfold zlen; cbn [length]; lia.
Qed.

Theorem C65_count : forall w t fuel, (2 ^ length w < fuel)%nat ->
  exists k, subset_sum_count fuel w t = Ok k /\ number_of (fun s => length s = length w /\ weight_of w s = t) k.
Proof.
  intros w t fuel F. exists (zlen (filter (fun s => weight_of w s =? t) (subsets (length w)))). split.
  - unfold subset_sum_count. destruct fuel as [|fuel]; [lia|]. cbn [count_loop subset_next]. destruct (subsets_chain (length w)) as [l [E C]].
    cbn [Z.eqb]. change (subset_next (repeat false (length w)) (-1)) with (repeat false (length w), 0). cbn [Z.eqb].
    pose proof (subsets_length (length w)) as L. rewrite E in L. cbn [length] in L.
    rewrite count_loop_chain with (l := l) by (auto; lia). rewrite E. cbn [filter]. rewrite selected_weight. f_equal.
    destruct (weight_of w (repeat false (length w)) =? t); unfold zlen; cbn [length]; lia.
  - eexists. split; [|split; [|reflexivity]].
    + apply NoDup_filter, subsets_NoDup.
    + intros s. rewrite filter_In, subsets_spec, Z.eqb_eq. reflexivity.
Qed.
Print Assumptions C65_count.

Lemma find_loop_chain w t l x rank fuel : 0 <= rank -> chain x l -> (length l < fuel)%nat ->
  exists s, find_loop fuel w t x rank = Ok s /\
    ((In s l /\ weight_of w s = t) \/ ((forall y, In y l -> weight_of w y <> t) /\ s = repeat false (length w))).
Proof.
  revert x rank fuel; induction l as [|y l IH]; intros x rank [|fuel] R C F; cbn [length] in F; try lia; cbn [find_loop chain] in *; rewrite subset_next_succ by auto.
  - rewrite C. eexists. split; [reflexivity|]. right. split; [intros y []|reflexivity].
  - destruct C as [C1 C2]. rewrite C1. destruct (Z.eqb_spec (rank + 1) (-1)); [lia|]. rewrite selected_weight.
    destruct (Z.eqb_spec (weight_of w y) t) as [E|E]. { exists y. split; [reflexivity|]. left. split; [left; auto|auto]. }
    destruct (IH y (rank + 1) fuel ltac:(lia) C2 ltac:(lia)) as [s [S1 [[S2 S3]|[S2 S3]]]]; exists s; (split; [exact S1|]).
    + left. split; [right; auto|auto].
    + right. split; [|auto]. intros z [<-|Hz]; auto.
Qed.

(** a solution is found whenever there is one; otherwise the empty subset is returned *)
Theorem C65_find : forall w t fuel, (2 ^ length w < fuel)%nat ->
  exists s, subset_sum_find fuel w t = Ok s /\ length s = length w /\
    ((exists s', length s' = length w /\ weight_of w s' = t) -> weight_of w s = t) /\
    (~ (exists s', length s' = length w /\ weight_of w s' = t) -> s = repeat false (length w)).
Proof.
  intros w t fuel F. unfold subset_sum_find. destruct fuel as [|fuel]; [lia|]. cbn [find_loop].
  change (subset_next (repeat false (length w)) (-1)) with (repeat false (length w), 0). cbn [Z.eqb]. rewrite selected_weight.
  destruct (subsets_chain (length w)) as [l [E C]]. pose proof (subsets_length (length w)) as L. rewrite E in L. cbn [length] in L.
  assert (M : forall s, length s = length w <-> s = repeat false (length w) \/ In s l). { intros s. rewrite <- subsets_spec, E. cbn. intuition. }
  destruct (Z.eqb_spec (weight_of w (repeat false (length w))) t) as [W|W].
  { eexists. split; [reflexivity|]. split; [apply repeat_length|]. split; auto. }
  destruct (find_loop_chain w t l (repeat false (length w)) 0 fuel ltac:(lia) C ltac:(lia)) as [s [-> [[S2 S3]|[S2 ->]]]].
  - exists s. split; [reflexivity|]. split; [apply M; auto|]. split; [auto|]. intros N. exfalso. apply N. exists s. split; [apply M; auto|auto].
  - eexists. split; [reflexivity|]. split; [apply repeat_length|]. split; [|auto]. intros [s' [H1 H2]]. apply M in H1. destruct H1 as [->|H1]; [auto|]. exfalso. exact (S2 s' H1 H2).
Qed.
Print Assumptions C65_find.

(** the two answers are the same array when the target is not reachable and when it is 0 *)
Theorem C65_no_solution_refuted : exists w fuel, subset_sum_find fuel w 5 = subset_sum_find fuel w 0 /\
  (forall s, length s = length w -> weight_of w s <> 5) /\ weight_of w [false; false] = 0 /\ is_ok (subset_sum_find fuel w 5) = true.
Proof.
  exists [2; 4], 6%nat. split; [reflexivity|]. split; [|split; reflexivity]. intros s H. destruct s as [|a [|b [|? s]]]; try discriminate. destruct a, b; cbn; lia.
Qed.
Print Assumptions C65_no_solution_refuted.
Example C65_example : subset_sum_count 100 [1; 2; 3; 5] 6 = Ok 2 /\ subset_sum_find 100 [1; 2; 3; 5] 6 = Ok [true; false; false; true].
Proof. split; reflexivity. Qed.

(* ------------------------------------------------------------------ *)
(** ** C66: the table of reachable sums *)

(** some of the weights add up to i *)
Definition reachable (w : list Z) (i : Z) : Prop := exists l, sublist l w /\ sumZ l = i.
Definition at_sum (table : list Z) (i : Z) : Z := nth (Z.to_nat i) table 0.

Lemma get_at tab i : 0 <= i < zlen tab -> get tab i = Ok (at_sum tab i).
Proof.
  intros H. unfold get, py_get, at_sum. destruct (Z.leb_spec 0 i); [|lia]. destruct (Z.ltb_spec i (zlen tab)); [|lia].
  rewrite (nth_error_nth' tab 0) by (unfold zlen in *; lia). reflexivity.
Qed.
Lemma put_at {A} (tab : list A) i v : 0 <= i < zlen tab -> put tab i v = Ok (upd (Z.to_nat i) v tab).
Proof. intros H. unfold put. destruct (Z.ltb_spec i 0); [lia|]. destruct (Z.leb_spec 0 i), (Z.ltb_spec i (zlen tab)); cbn [andb]; try lia; reflexivity. Qed.
Lemma at_upd tab i v j : 0 <= i < zlen tab -> 0 <= j -> at_sum (upd (Z.to_nat i) v tab) j = if j =? i then v else at_sum tab j.
Proof.
  intros H Hj. unfold at_sum. rewrite nth_upd. unfold zlen in H.
  destruct (Nat.eqb_spec (Z.to_nat i) (Z.to_nat j)), (Z.eqb_spec j i); try lia; destruct (Nat.ltb_spec (Z.to_nat i) (length tab)); cbn [andb]; try lia; auto.
Qed.

(** one weight: entry i becomes wi if it was 0 and i - wi was already reachable *)
Definition updated (wi : Z) (tab : list Z) (i : Z) : Z :=
  if ((at_sum tab i =? 0) && (wi <=? i) && ((i =? wi) || negb (at_sum tab (i - wi) =? 0)))%bool then wi else at_sum tab i.

Lemma down_from_S m : 0 <= m -> down_from m = m :: down_from (m - 1).
Proof.
  intros H. unfold down_from. replace (Z.to_nat (m + 1)) with (S (Z.to_nat m)) by lia. replace (Z.to_nat (m - 1 + 1)) with (Z.to_nat m) by lia.
  rewrite seq_S, map_app, rev_app_distr. cbn [map rev app plus]. f_equal. lia.
Qed.
Lemma down_from_neg m : m < 0 -> down_from m = [].
Proof. intros H. unfold down_from. replace (Z.to_nat (m + 1)) with 0%nat by lia. reflexivity. Qed.

Lemma table_step_spec wi tab j : 0 < wi -> 0 <= j -> j + wi < zlen tab ->
  exists tab', table_step wi tab j = Ok tab' /\ length tab' = length tab /\
    forall i, 0 <= i -> at_sum tab' i = if ((i =? j + wi) && (at_sum tab i =? 0) && ((j =? 0) || negb (at_sum tab j =? 0)))%bool then wi else at_sum tab i.
Proof.
  intros W J T. unfold table_step. destruct (Z.eqb_spec j 0) as [->|N].
  - rewrite get_at by lia. cbn [bind]. cbn [orb]. destruct (Z.eqb_spec (at_sum tab wi) 0) as [E|E].
    + rewrite put_at by lia. eexists. split; [reflexivity|]. split; [apply upd_length|]. intros i Hi. rewrite at_upd by lia. cbn [Z.add].
      destruct (Z.eqb_spec i wi) as [->|]; cbn [andb]; [|reflexivity]. rewrite E. reflexivity.
    + eexists. split; [reflexivity|]. split; [reflexivity|]. intros i Hi. cbn [Z.add]. destruct (Z.eqb_spec i wi) as [->|]; cbn [andb]; [|reflexivity].
      destruct (Z.eqb_spec (at_sum tab wi) 0); [lia|reflexivity].
  - rewrite get_at by lia. cbn [bind]. destruct (Z.eqb_spec (at_sum tab j) 0) as [E|E]; cbn [negb orb].
    + eexists. split; [reflexivity|]. split; [reflexivity|]. intros i Hi. rewrite andb_false_r. reflexivity.
    + rewrite get_at by lia. cbn [bind]. destruct (Z.eqb_spec (at_sum tab (j + wi)) 0) as [F|F].
      * rewrite put_at by lia. eexists. split; [reflexivity|]. split; [apply upd_length|]. intros i Hi. rewrite at_upd by lia.
        destruct (Z.eqb_spec i (j + wi)) as [->|]; cbn [andb]; [|reflexivity]. rewrite F. reflexivity.
      * eexists. split; [reflexivity|]. split; [reflexivity|]. intros i Hi. destruct (Z.eqb_spec i (j + wi)) as [->|]; cbn [andb]; [|reflexivity].
        destruct (Z.eqb_spec (at_sum tab (j + wi)) 0); [lia|reflexivity].
Qed.

Lemma pass_spec wi tab0 : 0 < wi -> forall k tab m, m = Z.of_nat k - 1 -> length tab = length tab0 -> m + wi < zlen tab ->
  (forall i, 0 <= i < zlen tab0 -> at_sum tab i = if i <=? m + wi then at_sum tab0 i else updated wi tab0 i) ->
  exists tab', steps (table_step wi) (down_from m) tab = Ok tab' /\ length tab' = length tab0 /\ forall i, 0 <= i < zlen tab0 -> at_sum tab' i = updated wi tab0 i.
Proof.
  intros W. induction k as [|k IH]; intros tab m Hm L T V.
  - rewrite down_from_neg by lia. cbn [steps]. exists tab. split; [reflexivity|]. split; [exact L|]. intros i Hi. rewrite (V i Hi).
    destruct (Z.leb_spec i (m + wi)); [|reflexivity]. unfold updated. destruct (Z.leb_spec wi i); [lia|]. rewrite andb_false_r. reflexivity.
  - rewrite down_from_S by lia. cbn [steps]. destruct (table_step_spec wi tab m W ltac:(lia) T) as [tab1 [E [L1 V1]]]. rewrite E. cbn [bind].
    apply IH; [lia|congruence|unfold zlen in *; rewrite L1; lia|]. intros i Hi. rewrite V1 by lia. rewrite (V i Hi), (V m) by (unfold zlen in *; lia).
    destruct (Z.leb_spec m (m + wi)); [|lia].
    destruct (Z.eqb_spec i (m + wi)) as [->|N]; cbn [andb].
    + destruct (Z.leb_spec (m + wi) (m + wi)); [|lia]. destruct (Z.leb_spec (m + wi) (m - 1 + wi)); [lia|]. unfold updated.
      destruct (Z.leb_spec wi (m + wi)); [|lia]. replace (m + wi - wi) with m by lia. rewrite andb_true_r.
      replace (m + wi =? wi) with (m =? 0); [reflexivity|]. destruct (Z.eqb_spec m 0), (Z.eqb_spec (m + wi) wi); lia.
    + destruct (Z.leb_spec i (m + wi)), (Z.leb_spec i (m - 1 + wi)); try lia; reflexivity.
Qed.

Lemma zero_pass tab l : (forall j, In j l -> 0 <= j < zlen tab) -> 0 < zlen tab -> steps (table_step 0) l tab = Ok tab.
Proof.
  induction l as [|j l IH]; intros H N; [reflexivity|]. cbn [steps].
  assert (table_step 0 tab j = Ok tab) as ->.
  { unfold table_step. assert (Hj := H j (or_introl eq_refl)). destruct (Z.eqb_spec j 0).
    - rewrite get_at by lia. cbn [bind]. destruct (Z.eqb_spec (at_sum tab 0) 0) as [E|]; [|reflexivity]. rewrite put_at by lia. f_equal.
      unfold at_sum in E. destruct tab as [|x tab]; [cbn in N; lia|]. cbn in *. congruence.
    - rewrite get_at by lia. cbn [bind]. destruct (Z.eqb_spec (at_sum tab j) 0) as [E|E]; [reflexivity|]. rewrite Z.add_0_r, get_at by lia. cbn [bind].
      destruct (Z.eqb_spec (at_sum tab j) 0); [lia|reflexivity]. }
  cbn [bind]. apply IH; auto. intros k Hk. apply H. right; auto.
Qed.

Lemma one_weight wi t tab : 0 <= wi -> 0 <= t -> zlen tab = t + 1 ->
  exists tab', steps (table_step wi) (down_from (t - wi)) tab = Ok tab' /\ zlen tab' = t + 1 /\
    forall i, 0 <= i <= t -> at_sum tab' i = if 0 <? wi then updated wi tab i else at_sum tab i.
Proof.
  intros W T L. destruct (Z.ltb_spec 0 wi) as [P|P].
  - destruct (Z.leb_spec wi t) as [B|B].
    + destruct (pass_spec wi tab P (Z.to_nat (t - wi + 1)) tab (t - wi) ltac:(lia) eq_refl ltac:(lia)) as [tab' [E [L' V]]].
      { intros i Hi. destruct (Z.leb_spec i (t - wi + wi)); [reflexivity|lia]. }
      exists tab'. split; [exact E|]. split; [unfold zlen in *; lia|]. intros i Hi. apply V. lia.
    + rewrite down_from_neg by lia. exists tab. split; [reflexivity|]. split; [exact L|]. intros i Hi. unfold updated.
      destruct (Z.leb_spec wi i); [lia|]. rewrite andb_false_r. reflexivity.
  - assert (wi = 0) as -> by lia. exists tab. split; [|split; [exact L|reflexivity]]. apply zero_pass; [|lia].
    intros j Hj. unfold down_from in Hj. apply in_rev, in_map_iff in Hj. destruct Hj as [k [<- Hk]]. apply in_seq in Hk. lia.
Qed.

(* ---------------- reachable sums ---------------- *)
Lemma sublist_nil l : sublist l [] -> l = [].
Proof. intros H; inversion H; reflexivity. Qed.
Lemma sublist_empty l : sublist [] l.
Proof. induction l; constructor; auto. Qed.
Lemma sublist_app_r l d m : sublist l d -> sublist l (d ++ m).
Proof. intros H; induction H; cbn; try constructor; auto. apply sublist_empty. Qed.
Lemma sublist_snoc_keep l d x : sublist l d -> sublist (l ++ [x]) (d ++ [x]).
Proof. intros H; induction H; cbn; try (constructor; auto); constructor. Qed.
Lemma sublist_snoc l d x : sublist l (d ++ [x]) -> sublist l d \/ exists l', l = l' ++ [x] /\ sublist l' d.
Proof.
  revert l; induction d as [|y d IH]; intros l H; cbn in H.
  - inversion H as [|? l' ? H'|? ? ? H']; subst; apply sublist_nil in H'; subst; [right; exists []; split; [reflexivity|constructor]|left; constructor].
  - inversion H as [|? l' ? H'|? ? ? H']; subst; destruct (IH _ H') as [X|[l'' [-> X]]].
    + left; constructor; auto.
    + right. exists (y :: l''). split; [reflexivity|constructor; auto].
    + left; constructor; auto.
    + right. exists l''. split; [reflexivity|constructor; auto].
Qed.
Lemma sublist_In l d : sublist l d -> forall x, In x l -> In x d.
Proof. intros H; induction H; intros y Hy; auto; [destruct Hy as [<-|Hy]; [left; auto|right; auto]|right; auto]. Qed.
Lemma sumZ_app' l m : sumZ (l ++ m) = sumZ l + sumZ m.
Proof. unfold sumZ. induction l as [|x l IH]; cbn; lia. Qed.
Lemma sumZ_nonneg' l : Forall (fun x => 0 <= x) l -> 0 <= sumZ l.
Proof. intros H; induction H; unfold sumZ in *; cbn; lia. Qed.
Lemma reachable_nonneg w i : Forall (fun x => 0 <= x) w -> reachable w i -> 0 <= i.
Proof. intros H [l [S1 <-]]. apply sumZ_nonneg'. apply Forall_forall. intros x Hx. rewrite Forall_forall in H. apply H. eapply sublist_In; eauto. Qed.
Lemma reachable_app a b i : reachable a i -> reachable (a ++ b) i.
Proof. intros [l [S1 S2]]. exists l. split; auto using sublist_app_r. Qed.
Lemma reachable_snoc a x i : reachable (a ++ [x]) i <-> reachable a i \/ reachable a (i - x).
Proof.
  split.
  - intros [l [S1 <-]]. apply sublist_snoc in S1. destruct S1 as [S1|[l' [-> S1]]]; [left; exists l; auto|right]. exists l'. split; auto. rewrite sumZ_app'. cbn. lia.
  - intros [H|[l [S1 S2]]]; [apply reachable_app; auto|]. exists (l ++ [x]). split; [apply sublist_snoc_keep; auto|]. rewrite sumZ_app'. cbn. lia.
Qed.

Definition table_of (t : Z) (w tab : list Z) : Prop :=
  zlen tab = t + 1 /\ at_sum tab 0 = 0 /\
  forall i, 1 <= i <= t ->
    (at_sum tab i = 0 /\ ~ reachable w i) \/
    (at_sum tab i <> 0 /\ exists a b, w = a ++ at_sum tab i :: b /\ reachable a (i - at_sum tab i) /\ ~ reachable a i).

Lemma table_correct t w : 0 <= t -> Forall (fun x => 0 <= x) w -> exists tab, subset_sum_table t w = Ok tab /\ table_of t w tab.
Proof.
  intros T W. unfold subset_sum_table.
  assert (G : forall rest done tab, w = done ++ rest -> table_of t done tab ->
    exists tab', steps (fun table wi => steps (table_step wi) (down_from (t - wi)) table) rest tab = Ok tab' /\ table_of t w tab').
  { induction rest as [|wi rest IH]; intros done tab E (L & Z0 & V). { rewrite app_nil_r in E. subst. exists tab. split; [reflexivity|]. split; auto. }
    cbn [steps]. assert (0 <= wi) as Wi. { rewrite Forall_forall in W. apply W. rewrite E. apply in_app_iff. right; left; auto. }
    assert (Wd : Forall (fun x => 0 <= x) done). { rewrite E in W. apply Forall_app in W. tauto. }
    destruct (one_weight wi t tab Wi T L) as [tab' [E' [L' V']]]. rewrite E'. cbn [bind]. apply (IH (done ++ [wi])); [rewrite <- app_assoc; exact E|].
    split; [exact L'|]. split.
    { rewrite V' by lia. rewrite Z0. destruct (Z.ltb_spec 0 wi); [|reflexivity]. unfold updated. rewrite Z0. destruct (Z.leb_spec wi 0); [lia|]. reflexivity. }
    intros i Hi. rewrite V' by lia. destruct (V i Hi) as [[N R]|[N (a & b & Ed & R & NR)]].
    2: { right. assert ((if 0 <? wi then updated wi tab i else at_sum tab i) = at_sum tab i) as ->.
      { destruct (0 <? wi); [|reflexivity]. unfold updated. destruct (Z.eqb_spec (at_sum tab i) 0); [lia|reflexivity]. }
      split; [exact N|]. exists a, (b ++ [wi]). rewrite Ed at 1. rewrite <- app_assoc. auto. }
    destruct (Z.ltb_spec 0 wi) as [P|P].
    2: { left. split; [exact N|]. rewrite reachable_snoc. replace (i - wi) with i by lia. tauto. }
    unfold updated. destruct (Z.eqb_spec (at_sum tab i) 0); [cbn [andb]|lia]. destruct (Z.leb_spec wi i) as [B|B]; cbn [andb].
    2: { left. split; [exact N|]. rewrite reachable_snoc. intros [X|X]; [auto|]. apply reachable_nonneg in X; auto. lia. }
    destruct (Z.eqb_spec i wi) as [->|Ni]; cbn [orb].
    { right. split; [lia|]. exists done, []. split; [reflexivity|]. split; [|exact R]. rewrite Z.sub_diag. exists []. split; [apply sublist_empty|reflexivity]. }
    destruct (V (i - wi) ltac:(lia)) as [[N' R']|[N' (a & b & Ed & R' & NR')]].
    - rewrite N'. cbn [negb Z.eqb]. left. split; [exact N|]. rewrite reachable_snoc. tauto.
    - destruct (Z.eqb_spec (at_sum tab (i - wi)) 0); [lia|]. cbn [negb]. right. split; [lia|]. exists done, []. split; [reflexivity|]. split; [|exact R].
      set (x := at_sum tab (i - wi)) in *. rewrite Ed. replace (a ++ x :: b) with ((a ++ [x]) ++ b) by (rewrite <- app_assoc; reflexivity). apply reachable_app, reachable_snoc. right. exact R'. }
  apply (G w [] _ eq_refl). assert (Z0 : forall i, at_sum (repeat 0 (Z.to_nat (t + 1))) i = 0).
  { intros i. unfold at_sum. generalize (Z.to_nat i). generalize (Z.to_nat (t + 1)). induction n as [|n IH]; intros [|m]; cbn; auto. }
  split; [unfold zlen; rewrite repeat_length; lia|]. split; [apply Z0|]. intros i Hi. left. split; [apply Z0|]. intros [l [S1 S2]]. apply sublist_nil in S1. subst l. cbn in S2. lia.
Qed.

(** an entry of the table is 0 exactly when the sum is out of reach; otherwise it is one of the weights *)
Theorem C66_table : forall t w, 0 <= t -> Forall (fun x => 0 <= x) w ->
  exists tab, subset_sum_table t w = Ok tab /\ zlen tab = t + 1 /\ at_sum tab 0 = 0 /\
    forall i, 1 <= i <= t -> (at_sum tab i <> 0 <-> reachable w i) /\ (at_sum tab i <> 0 -> In (at_sum tab i) w /\ at_sum tab i <= i).
Proof.
  intros t w T W. destruct (table_correct t w T W) as [tab [E (L & Z0 & V)]]. exists tab. split; [exact E|]. split; [exact L|]. split; [exact Z0|].
  intros i Hi. destruct (V i Hi) as [[N R]|[N (a & b & Ew & R & NR)]]; [tauto|].
  split.
  - split; [|auto]. intros _. set (x := at_sum tab i) in *. rewrite Ew. replace (a ++ x :: b) with ((a ++ [x]) ++ b) by (rewrite <- app_assoc; reflexivity). apply reachable_app, reachable_snoc. right. exact R.
  - intros _. split; [rewrite Ew at 1; apply in_app_iff; right; left; reflexivity|]. apply reachable_nonneg in R; [lia|]. rewrite Ew in W. apply Forall_app in W. tauto.
Qed.
Print Assumptions C66_table.

Lemma to_list_correct t w tab : Forall (fun x => 0 <= x) w -> table_of t w tab ->
  forall fuel i p r acc m, w = p ++ r -> reachable p i -> 0 <= i <= t -> i < Z.of_nat fuel ->
  exists l, to_list fuel tab i acc m = Ok (m + zlen l, acc ++ l) /\ sublist (rev l) p /\ sumZ l = i.
Proof.
  intros W (L & Z0 & V). induction fuel as [|fuel IH]; intros i p r acc m Ew R Hi F; [lia|]. cbn [to_list].
  destruct (Z.ltb_spec 0 i) as [P|P].
  2: { exists []. rewrite app_nil_r. cbn. rewrite Z.add_0_r. split; [reflexivity|]. split; [apply sublist_empty|lia]. }
  rewrite get_at by lia. cbn [bind]. destruct (V i ltac:(lia)) as [[N NR]|[N (a & b & Ew' & Ra & NRa)]]. { exfalso. apply NR. rewrite Ew. apply reachable_app, R. }
  set (x := at_sum tab i) in *.
  assert (Wa : Forall (fun x => 0 <= x) a) by (rewrite Ew' in W; apply Forall_app in W; tauto). pose proof (reachable_nonneg _ _ Wa Ra) as Pa.
  assert (0 < x). { rewrite Forall_forall in W. assert (0 <= x) by (apply W; rewrite Ew'; apply in_app_iff; right; left; reflexivity). lia. }
  assert (H' : exists c, p = (a ++ [x]) ++ c).
  { assert (a ++ x :: b = p ++ r) as E by congruence. apply app_eq_app in E. destruct E as [c [[E1 E2]|[E1 E2]]].
    - exfalso. apply NRa. rewrite E1. apply reachable_app, R.
    - destruct c as [|y c]; cbn in E2; [exfalso; apply NRa; rewrite app_nil_r in E1; subst; exact R|]. injection E2 as <- E2. exists c. rewrite <- app_assoc. exact E1. }
  destruct H' as [c Ep]. destruct (IH (i - x) a (x :: b) (acc ++ [x]) (m + 1) Ew' Ra ltac:(lia) ltac:(lia)) as [l [E [Sl Ss]]].
  exists (x :: l). rewrite E. split.
  - f_equal. f_equal; [unfold zlen; cbn [length]; lia|rewrite <- app_assoc; reflexivity].
  - split; [|change (x + sumZ l = i); lia]. cbn [rev]. rewrite Ep. apply sublist_app_r, sublist_snoc_keep, Sl.
Qed.

(** the list read from the table: weights of the problem, each used at most once (they are met in
    reverse order), with the sum t *)
Theorem C66_list : forall t w fuel, 0 <= t -> Forall (fun x => 0 <= x) w -> reachable w t -> t < Z.of_nat fuel ->
  exists tab l, subset_sum_table t w = Ok tab /\ subset_sum_table_to_list fuel t tab = Ok (zlen l, l) /\ sublist (rev l) w /\ sumZ l = t.
Proof.
  intros t w fuel T W R F. destruct (table_correct t w T W) as [tab [E V]]. exists tab.
  destruct (to_list_correct t w tab W V fuel t w [] [] 0 ltac:(rewrite app_nil_r; reflexivity) R ltac:(lia) F) as [l [E' [Sl Ss]]].
  exists l. split; [exact E|]. split; [exact E'|]. auto.
Qed.
Print Assumptions C66_list.

(** when the sum is out of reach the documented empty list is never returned: the loop does not end *)
Theorem C66_no_solution_refuted : forall t w, 0 < t -> Forall (fun x => 0 <= x) w -> ~ reachable w t ->
  exists tab, subset_sum_table t w = Ok tab /\ forall fuel, subset_sum_table_to_list fuel t tab = Err OutOfFuel.
Proof.
  intros t w T W R. destruct (table_correct t w ltac:(lia) W) as [tab [E (L & Z0 & V)]]. exists tab. split; [exact E|].
  destruct (V t ltac:(lia)) as [[N _]|[N (a & b & Ew & Ra & NR)]].
  2: { exfalso. apply R. set (x := at_sum tab t) in *. rewrite Ew. replace (a ++ x :: b) with ((a ++ [x]) ++ b) by (rewrite <- app_assoc; reflexivity). apply reachable_app, reachable_snoc. right. exact Ra. }
  intros fuel. unfold subset_sum_table_to_list. generalize (@nil Z) at 1. generalize 0 at 1. induction fuel as [|fuel IH]; intros m acc; [reflexivity|]. cbn [to_list].
  destruct (Z.ltb_spec 0 t); [|lia]. rewrite get_at by lia. cbn [bind]. rewrite N, Z.sub_0_r. apply IH.
Qed.
Print Assumptions C66_no_solution_refuted.
Example C66_example : Forall (fun x => 0 <= x) [1; 2; 4; 8; 16; 32] /\ reachable [1; 2; 4; 8; 16; 32] 22 /\
  (do tab <- subset_sum_table 22 [1; 2; 4; 8; 16; 32]; subset_sum_table_to_list 30 22 tab) = Ok (3, [16; 4; 2]) /\ ~ reachable [2; 4] 5.
Proof.
  split; [repeat constructor; lia|]. split.
  { exists [2; 4; 16]. split; [|reflexivity]. repeat constructor. }
  split; [reflexivity|]. intros [l [S1 S2]]. inversion S1; subst; match goal with H : sublist _ [4] |- _ => inversion H; subst end;
    match goal with H : sublist _ [] |- _ => apply sublist_nil in H; subst end; cbn in S2; lia.
Qed.

(* ------------------------------------------------------------------ *)
(** ** C67: the solutions one after the other *)

(** u selects, with 0 and 1, values of v with the sum s *)
Fixpoint value (v u : list Z) : Z := match v, u with x :: v', b :: u' => b * x + value v' u' | _, _ => 0 end.
Definition bits (u : list Z) : Prop := Forall (fun b => b = 0 \/ b = 1) u.
Definition solution (s : Z) (v u : list Z) : Prop := length u = length v /\ bits u /\ value v u = s.

Lemma value_dot v u : length u = length v -> dot u v = Ok (value v u).
Proof.
  intros H. unfold dot. rewrite H, Nat.eqb_refl. f_equal. revert u H. induction v as [|x v IH]; intros [|b u] H; cbn [List.combine map value fst snd]; try discriminate; [reflexivity|].
  change (sumZ (b * x :: map (fun p => fst p * snd p) (List.combine u v)) = b * x + value v u). cbn [length] in H. rewrite <- IH by lia. reflexivity.
Qed.
Lemma value_app v u v' u' : length u = length v -> value (v ++ v') (u ++ u') = value v u + value v' u'.
Proof. revert u; induction v as [|x v IH]; intros [|b u] H; cbn in *; try discriminate; [reflexivity|]. rewrite IH by lia. lia. Qed.
Definition zeros (k : nat) : list Z := repeat 0 k.
Lemma zeros_S k : zeros (S k) = zeros k ++ [0].
Proof. unfold zeros. replace (S k) with (k + 1)%nat by lia. rewrite repeat_app. reflexivity. Qed.
Lemma zeros_app a b : zeros (a + b) = zeros a ++ zeros b.
Proof. apply repeat_app. Qed.
Lemma zeros_length k : length (zeros k) = k.
Proof. apply repeat_length. Qed.
Lemma bits_zeros k : bits (zeros k).
Proof. apply Forall_forall. intros x Hx. apply repeat_spec in Hx. auto. Qed.
Lemma value_zeros v k : value v (zeros k) = 0.
Proof. revert k; induction v as [|x v IH]; intros [|k]; try reflexivity. change (0 * x + value v (zeros k) = 0). rewrite IH. lia. Qed.

(** vectors with the prefix p, not zero after it, in the order of the search *)
Fixpoint gen (p : list Z) (k : nat) : list (list Z) :=
  match k with O => [] | S k' => (p ++ 1 :: zeros k') :: gen (p ++ [1]) k' ++ gen (p ++ [0]) k' end.
(** vectors that come after all those with the prefix rev r *)
Fixpoint rest (r : list Z) (k : nat) : list (list Z) :=
  match r with [] => [] | b :: r' => (if b =? 1 then gen (rev r' ++ [0]) k else []) ++ rest r' (S k) end.
Definition skipped (p : list Z) (k : nat) : list (list Z) := gen (p ++ [1]) k ++ gen (p ++ [0]) k.
Definition after (p : list Z) (k : nat) : list (list Z) := skipped p k ++ rest (rev p) (S k).

Lemma gen_spec k p x : In x (gen p k) <-> exists y, x = p ++ y /\ length y = k /\ bits y /\ y <> zeros k.
Proof.
  revert p x; induction k as [|k IH]; intros p x; cbn [gen].
  - split; [intros []|]. intros (y & _ & L & _ & N). destruct y; [|discriminate]. apply N; reflexivity.
  - rewrite in_app_iff || cbn [In]. cbn [In]. rewrite in_app_iff, !IH. split.
    + intros [<-|[(y & -> & L & B & N)|(y & -> & L & B & N)]].
      * exists (1 :: zeros k). split; [reflexivity|]. split; [cbn; f_equal; apply repeat_length|]. split; [constructor; [auto|apply bits_zeros]|discriminate].
      * exists (1 :: y). rewrite <- app_assoc. split; [reflexivity|]. split; [cbn; lia|]. split; [constructor; auto|discriminate].
      * exists (0 :: y). rewrite <- app_assoc. split; [reflexivity|]. split; [cbn; lia|]. split; [constructor; auto|]. unfold zeros; cbn. intros X; injection X as X. apply N, X.
    + intros (y & -> & L & B & N). destruct y as [|b y]; [discriminate|]. cbn in L. inversion B as [|? ? [->| ->] B']; subst.
      * right; right. exists y. rewrite <- app_assoc. split; [reflexivity|]. split; [lia|]. split; [exact B'|]. intros ->. apply N. replace (S (length (zeros k))) with (length (zeros (S k))) in * by (unfold zeros; rewrite !repeat_length; reflexivity). reflexivity.
      * destruct (list_eq_dec Z.eq_dec y (zeros k)) as [->|N']; [left; reflexivity|]. right; left. exists y. rewrite <- app_assoc. split; [reflexivity|]. split; [lia|]. auto.
Qed.
Lemma gen_NoDup k p : NoDup (gen p k).
Proof.
  revert p; induction k as [|k IH]; intros p; cbn [gen]; [constructor|]. constructor.
  - rewrite in_app_iff, !gen_spec. intros [(y & E & L & B & N)|(y & E & L & B & N)]; rewrite <- app_assoc in E; apply app_inv_head in E; cbn in E; [injection E as <-; auto|discriminate].
  - apply NoDup_app'; auto. intros x. rewrite !gen_spec. intros (y & -> & _) (z & E & _). rewrite <- !app_assoc in E. apply app_inv_head in E. discriminate.
Qed.
Lemma gen_length k p : (length (gen p k) = 2 ^ k - 1)%nat.
Proof.
  revert p; induction k as [|k IH]; intros p; cbn [gen length Nat.pow]; [reflexivity|]. rewrite app_length, !IH. pose proof (Nat.pow_nonzero 2 k). lia.
Qed.
Lemma rest_zeros r k : Forall (fun b => b = 0) r -> rest r k = [].
Proof. intros H; revert k; induction H as [|b r -> H IH]; intros k; cbn; auto. Qed.

(* ---------------- backtracking ---------------- *)
Lemma upd_mid {A} (p : list A) a b l : upd (length p) b (p ++ a :: l) = p ++ b :: l.
Proof. induction p as [|x p IH]; cbn; congruence. Qed.
Lemma put_mid (p : list Z) a b l : put (p ++ a :: l) (zlen p) b = Ok (p ++ b :: l).
Proof. rewrite put_at; [|rewrite zlen_app; unfold zlen; cbn; lia]. unfold zlen. rewrite Nat2Z.id, upd_mid. reflexivity. Qed.
Lemma get_nat (u : list Z) k : (k < length u)%nat -> get u (Z.of_nat k) = Ok (nth k u 0).
Proof. intros H. rewrite get_at by (unfold zlen; lia). unfold at_sum. rewrite Nat2Z.id. reflexivity. Qed.

Lemma last_one p : bits p -> Forall (fun b => b = 0) p \/ exists q m, p = q ++ 1 :: zeros m.
Proof.
  intros B. induction p as [|b p IH] using rev_ind; [left; constructor|]. apply Forall_app in B. destruct B as [B1 B2]. inversion B2 as [|? ? [->| ->]]; subst.
  - destruct (IH B1) as [Z0|[q [m ->]]]; [left; apply Forall_app; auto|]. right. exists q, (S m). rewrite zeros_S, <- app_assoc. reflexivity.
  - right. exists p, 0%nat. reflexivity.
Qed.
Lemma backup_zeros u l k : Forall (fun b => b = 0) u -> (k <= length u)%nat -> backup_from (u ++ l) k = Ok (-1).
Proof.
  intros Z0. induction k as [|k IH]; intros H; cbn [backup_from]; [reflexivity|]. rewrite get_nat by (rewrite app_length; lia). cbn [bind].
  rewrite app_nth1 by lia. rewrite Forall_forall in Z0. rewrite (Z0 (nth k u 0)) by (apply nth_In; lia). cbn [Z.eqb]. apply IH. lia.
Qed.
Lemma backup_one_at q m l k : (k <= m)%nat -> backup_from (q ++ 1 :: zeros m ++ l) (length q + 1 + k) = Ok (zlen q).
Proof.
  induction k as [|k IH]; intros H.
  - rewrite Nat.add_0_r, Nat.add_1_r. cbn [backup_from]. rewrite get_nat by (rewrite app_length; cbn; lia). cbn [bind]. rewrite nth_middle. reflexivity.
  - rewrite Nat.add_succ_r. cbn [backup_from]. rewrite get_nat by (rewrite app_length; cbn; rewrite app_length, zeros_length; lia). cbn [bind].
    rewrite app_nth2 by lia. replace (length q + 1 + k - length q)%nat with (S k) by lia. cbn [nth]. rewrite app_nth1 by (unfold zeros; rewrite repeat_length; lia).
    assert (nth k (zeros m) 0 = 0) as ->. { destruct (nth_in_or_default k (zeros m) 0) as [X| ->]; [apply repeat_spec in X; exact X|reflexivity]. }
    cbn [Z.eqb]. apply IH. lia.
Qed.

(** from p ++ 1 :: zeros k the search goes on after the vectors that begin with p and after this one *)
Lemma back_spec p k : bits p ->
  exists u1, put (p ++ 1 :: zeros k) (zlen p) 0 = Ok u1 /\
  ((backup_one u1 (zlen p) = Ok (-1) /\ rest (rev p) (S k) = []) \/
   (exists q m u2, backup_one u1 (zlen p) = Ok (zlen q) /\ put u1 (zlen q) 0 = Ok u2 /\ put u2 (zlen q + 1) 1 = Ok ((q ++ [0]) ++ 1 :: zeros (m + k)) /\
      bits (q ++ [0]) /\ (length p = length q + 1 + m)%nat /\
      rest (rev p) (S k) = ((q ++ [0]) ++ 1 :: zeros (m + k)) :: after (q ++ [0]) (m + k))).
Proof.
  intros B. exists (p ++ 0 :: zeros k). split; [apply put_mid|]. unfold backup_one, zlen. rewrite Nat2Z.id. destruct (last_one p B) as [Z0|[q [m Ep]]].
  - left. split; [apply backup_zeros; auto|]. apply rest_zeros, Forall_rev, Z0.
  - right. subst p. exists q, m, (q ++ 0 :: zeros m ++ 0 :: zeros k). rewrite <- app_assoc. cbn [app].
    split. { rewrite app_length. cbn [length]. replace (length (zeros m)) with m by (symmetry; apply repeat_length). replace (length q + S m)%nat with (length q + 1 + m)%nat by lia. apply backup_one_at. lia. }
    split; [apply (put_mid q)|]. apply Forall_app in B. destruct B as [Bq _].
    assert (E : q ++ 0 :: zeros m ++ 0 :: zeros k = (q ++ [0]) ++ 0 :: zeros (m + k)).
    { rewrite <- app_assoc. cbn [app]. f_equal. f_equal. rewrite zeros_app. clear. induction m as [|m IH]; cbn; [reflexivity|]. f_equal. exact IH. }
    split. { rewrite E. replace (Z.of_nat (length q) + 1) with (zlen (q ++ [0])) by (rewrite zlen_app; reflexivity). apply put_mid. }
    split; [apply Forall_app; split; [exact Bq|constructor; auto]|]. split; [rewrite app_length; cbn; unfold zeros; rewrite repeat_length; lia|].
    rewrite rev_app_distr. cbn [rev]. rewrite <- app_assoc. unfold zeros at 1. rewrite rev_repeat. fold (zeros m). cbn [app].
    assert (G : forall j x, rest (zeros j ++ 1 :: rev q) x = gen (q ++ [0]) (j + x) ++ rest (rev q) (S (j + x))).
    { induction j as [|j IH]; intros x; cbn [zeros repeat app rest Z.eqb]; [rewrite rev_involutive; reflexivity|]. fold (zeros j). rewrite IH. rewrite Nat.add_succ_r. reflexivity. }
    rewrite G. rewrite Nat.add_succ_r. cbn [gen app]. unfold after, skipped. f_equal.
    rewrite rev_app_distr. cbn [rev app rest Z.eqb]. rewrite <- !app_assoc. reflexivity.
Qed.

(* ---------------- the skipped vectors ---------------- *)
(** the values are in ascending order (strictly, or not) and not negative *)
Definition ordered (v : list Z) : Prop := forall i j, (i < j < length v)%nat -> nth i v 0 <= nth j v 0.
Definition strictly_ordered (v : list Z) : Prop := forall i j, (i < j < length v)%nat -> nth i v 0 < nth j v 0.
Definition natural (v : list Z) : Prop := Forall (fun x => 0 <= x) v.

Lemma value_nonneg v u : natural v -> bits u -> 0 <= value v u.
Proof.
  revert u; induction v as [|x v IH]; intros [|b u] N B; cbn; try lia. inversion N; subst. inversion B as [|? ? Hb B']; subst.
  specialize (IH u H2 B'). destruct Hb as [->| ->]; lia.
Qed.
Lemma value_some v u : natural v -> bits u -> (length u = length v)%nat -> u <> zeros (length v) -> exists j, (j < length v)%nat /\ nth j v 0 <= value v u.
Proof.
  revert u; induction v as [|x v IH]; intros [|b u] N B L D; cbn in L; try discriminate; [exfalso; apply D; reflexivity|]. inversion N; subst. inversion B as [|? ? Hb B']; subst.
  destruct Hb as [->| ->].
  - destruct (IH u) as [j [Hj V]]; auto; [intros ->; apply D; reflexivity|]. exists (S j). cbn. split; [lia|exact V].
  - exists 0%nat. cbn [nth value length]. pose proof (value_nonneg v u H2 B'). split; lia.
Qed.
Lemma split_at (v : list Z) a k : (length v = a + 1 + k)%nat -> exists v1 x v2, v = v1 ++ x :: v2 /\ length v1 = a /\ length v2 = k.
Proof.
  intros L. exists (firstn a v), (nth a v 0), (skipn (S a) v). split; [|split; [rewrite firstn_length; lia|rewrite skipn_length; lia]].
  rewrite <- (firstn_skipn a v) at 1. f_equal. assert (H : (a < length v)%nat) by lia. clear L. revert v H. induction a as [|a IH]; intros [|x v] H; cbn in *; try lia; [reflexivity|]. apply IH. lia.
Qed.
Lemma skipped_value v p k x : (length v = length p + 1 + k)%nat -> bits p -> In x (skipped p k) ->
  natural v -> (ordered v -> value v (p ++ 1 :: zeros k) <= value v x) /\ (strictly_ordered v -> value v (p ++ 1 :: zeros k) < value v x).
Proof.
  intros L B Hx N. destruct (split_at v _ _ L) as (v1 & a & v2 & -> & L1 & L2). unfold natural in N. apply Forall_app in N. destruct N as [N1 N2].
  inversion N2 as [|? ? Na N3]; subst. rewrite value_app by lia. cbn [value]. fold (zeros (length v2)). rewrite value_zeros.
  assert (A : forall j, (j < length v2)%nat -> (ordered (v1 ++ a :: v2) -> a <= nth j v2 0) /\ (strictly_ordered (v1 ++ a :: v2) -> a < nth j v2 0)).
  { intros j Hj. split; intros O; specialize (O (length v1) (length v1 + S j)%nat); rewrite nth_middle in O; rewrite app_nth2 in O by lia;
    replace (length v1 + S j - length v1)%nat with (S j) in O by lia; cbn [nth] in O; apply O; rewrite app_length; cbn; lia. }
  unfold skipped in Hx. apply in_app_iff in Hx. rewrite !gen_spec in Hx.
  destruct Hx as [(y & -> & Ly & By & Dy)|(y & -> & Ly & By & Dy)]; rewrite <- app_assoc, value_app by lia; cbn [app value];
    destruct (value_some v2 y N3 By Ly Dy) as [j [Hj V]]; destruct (A j Hj) as [A1 A2]; split; intros O; [specialize (A1 O)|specialize (A2 O)|specialize (A1 O)|specialize (A2 O)]; lia.
Qed.
Lemma after_S p k : after p (S k) = ((p ++ [1]) ++ 1 :: zeros k) :: after (p ++ [1]) k.
Proof.
  unfold after. unfold skipped at 1. rewrite rev_app_distr. cbn [rev app rest Z.eqb gen]. rewrite rev_involutive. unfold skipped. rewrite <- !app_assoc. reflexivity.
Qed.
Lemma after_0 p : after p 0 = rest (rev p) 1.
Proof. reflexivity. Qed.
Lemma zlen_zeros k : zlen (zeros k) = Z.of_nat k.
Proof. unfold zlen. rewrite zeros_length. reflexivity. Qed.

Inductive picked {A} : list A -> list A -> Prop :=
| pk_nil : picked [] []
| pk_keep x l m : picked l m -> picked (x :: l) (x :: m)
| pk_skip x l m : picked l m -> picked l (x :: m).
Lemma picked_In {A} (l m : list A) x : picked l m -> In x l -> In x m.
Proof. intros H; induction H; cbn; auto. intros [->|]; auto. Qed.
Lemma picked_NoDup {A} (l m : list A) : picked l m -> NoDup m -> NoDup l.
Proof.
  intros H; induction H; intros N; [constructor| |]; inversion N; subst; auto. constructor; auto. intros X. apply (picked_In _ _ _ H) in X. contradiction.
Qed.

(* ---------------- the loop ---------------- *)
Section Loop.
Variables (s : Z) (v : list Z).
Let n := zlen v.
Definition state (p : list Z) (k : nat) : list Z := p ++ 1 :: zeros k.

(** the search from a list L of vectors stops at the first solution of L (when the values are ordered) *)
Definition search_result (L : list (list Z)) (r : result (bool * list Z * Z)) : Prop :=
  (exists p k pre, bits p /\ (length v = length p + 1 + k)%nat /\ r = Ok (true, state p k, zlen p) /\ L = pre ++ state p k :: after p k /\
     value v (state p k) = s /\ (natural v -> ordered v -> forall u, In u pre -> value v u <> s)) \/
  (exists u t, r = Ok (false, u, t) /\ (natural v -> ordered v -> forall x, In x L -> value v x <> s)).

Lemma search_more (L1 L : list (list Z)) r : (natural v -> ordered v -> forall u, In u L1 -> value v u <> s) -> search_result L r -> search_result (L1 ++ L) r.
Proof.
  intros H [(p & k & pre & B & Lv & E & EL & V & P)|(u & t & E & P)].
  - left. exists p, k, (L1 ++ pre). rewrite EL, <- app_assoc. do 5 (split; [assumption || reflexivity|]). intros N O x Hx. apply in_app_iff in Hx. destruct Hx; auto.
  - right. exists u, t. split; [exact E|]. intros N O x Hx. apply in_app_iff in Hx. destruct Hx; auto.
Qed.
Lemma state_value p k : (length v = length p + 1 + k)%nat -> dot (state p k) v = Ok (value v (state p k)).
Proof. intros L. apply value_dot. unfold state. rewrite app_length. cbn. fold (zeros k). rewrite zeros_length. lia. Qed.

Lemma loop_spec fuel p k : bits p -> (length v = length p + 1 + k)%nat -> (length (after p k) < fuel)%nat ->
  search_result (state p k :: after p k) (next_loop fuel s n v (state p k) (zlen p)).
Proof.
  revert p k. induction fuel as [|f IH]; intros p k B L F; [lia|]. cbn [next_loop]. rewrite state_value by exact L. cbn [bind].
  assert (Hn : n = zlen p + 1 + Z.of_nat k) by (unfold n, zlen; lia).
  destruct (_ && _)%bool eqn:C.
  - apply andb_true_iff in C. destruct C as [C1 C2]. apply Z.ltb_lt in C1, C2. destruct k as [|k]; [lia|].
    assert (put (state p (S k)) (zlen p + 1) 1 = Ok (state (p ++ [1]) k)) as ->.
    { unfold state. replace (p ++ 1 :: zeros (S k)) with ((p ++ [1]) ++ 0 :: zeros k) by (rewrite <- app_assoc; reflexivity).
      replace (zlen p + 1) with (zlen (p ++ [1])) by (rewrite zlen_app; reflexivity). apply put_mid. }
    cbn [bind]. replace (zlen p + 1) with (zlen (p ++ [1])) by (rewrite zlen_app; reflexivity).
    rewrite after_S in *. apply (search_more [state p (S k)]); [intros _ _ u [<-|[]]; lia|].
    apply IH; [apply Forall_app; split; auto; constructor; auto|rewrite app_length; cbn; lia|cbn in F; lia].
  - destruct (value v (state p k) =? s) eqn:C1.
    + apply Z.eqb_eq in C1. left. exists p, k, []. do 5 (split; [assumption || reflexivity|]). intros _ _ u [].
    + apply Z.eqb_neq in C1. destruct (back_spec p k B) as (u1 & E1 & R). unfold state at 2. rewrite E1. cbn [bind].
      assert (Sk : natural v -> ordered v -> forall u, In u (state p k :: skipped p k) -> value v u <> s).
      { intros N O u [<-|Hu]; [exact C1|]. apply andb_false_iff in C. destruct k as [|k]; [destruct Hu|].
        destruct (skipped_value v p (S k) u L B Hu N) as [G _]. specialize (G O). unfold state in *. rewrite !Z.ltb_ge in C. unfold zlen in *. lia. }
      destruct R as [(Eb & Er)|(q & m & u2 & Eb & E2 & E3 & Bq & Lq & Er)].
      * rewrite Eb. cbn [bind Z.ltb Z.compare]. right. eexists _, _. split; [reflexivity|]. intros N O x Hx. apply (Sk N O). unfold after in Hx. rewrite Er, app_nil_r in Hx. exact Hx.
      * rewrite Eb. cbn [bind]. assert (zlen q <? 0 = false) as -> by (apply Z.ltb_ge; unfold zlen; lia). rewrite E2. cbn [bind]. rewrite E3. cbn [bind].
        replace (zlen q + 1) with (zlen (q ++ [0])) by (rewrite zlen_app; reflexivity).
        unfold after at 1. rewrite Er. rewrite app_comm_cons. apply search_more; [exact Sk|].
        apply IH; [exact Bq|rewrite app_length; cbn; lia|]. unfold after in F at 1. rewrite Er in F. rewrite app_length in F. cbn in F. lia.
Qed.
(** the next call *)
Lemma resume_spec fuel p k : bits p -> (length v = length p + 1 + k)%nat -> (length (after p k) < fuel)%nat -> value v (state p k) = s ->
  (exists u t, subset_sum_next fuel s n v true (state p k) (zlen p) = Ok (false, u, t) /\ (natural v -> strictly_ordered v -> forall x, In x (after p k) -> value v x <> s)) \/
  (exists p' k' pre, bits p' /\ (length v = length p' + 1 + k')%nat /\ subset_sum_next fuel s n v true (state p k) (zlen p) = Ok (true, state p' k', zlen p') /\
     after p k = pre ++ state p' k' :: after p' k' /\ value v (state p' k') = s /\ (natural v -> strictly_ordered v -> forall u, In u pre -> value v u <> s)).
Proof.
  intros B L F V. unfold subset_sum_next. cbn [negb]. destruct (back_spec p k B) as (u1 & E1 & R). unfold state at 1 2 4. rewrite E1. cbn [bind].
  assert (Sk : natural v -> strictly_ordered v -> forall u, In u (skipped p k) -> value v u <> s).
  { intros N O u Hu. destruct (skipped_value v p k u L B Hu N) as [_ G]. specialize (G O). unfold state in V. lia. }
  assert (W : strictly_ordered v -> ordered v) by (intros O i j H; specialize (O i j H); lia).
  destruct R as [(Eb & Er)|(q & m & u2 & Eb & E2 & E3 & Bq & Lq & Er)].
  - left. rewrite Eb. cbn [bind Z.ltb Z.compare]. eexists _, _. split; [reflexivity|]. intros N O x Hx. apply (Sk N O). unfold after in Hx. rewrite Er, app_nil_r in Hx. exact Hx.
  - rewrite Eb. cbn [bind]. assert (zlen q <? 0 = false) as -> by (apply Z.ltb_ge; unfold zlen; lia). rewrite E2. cbn [bind]. rewrite E3. cbn [bind].
    replace (zlen q + 1) with (zlen (q ++ [0])) by (rewrite zlen_app; reflexivity). fold (state (q ++ [0]) (m + k)).
    assert (H := loop_spec fuel (q ++ [0]) (m + k) Bq). assert (EL : after p k = skipped p k ++ state (q ++ [0]) (m + k) :: after (q ++ [0]) (m + k)) by (unfold after at 1; rewrite Er; reflexivity).
    rewrite EL in *. rewrite app_length in F. cbn in F. destruct H as [(p' & k' & pre & B' & L' & E' & EL' & V' & P')|(u & t & E' & P')]; [rewrite app_length; cbn; lia|lia| |].
    + right. exists p', k', (skipped p k ++ pre). split; [exact B'|]. split; [exact L'|]. split; [exact E'|]. split; [rewrite EL', <- app_assoc; reflexivity|]. split; [exact V'|].
      intros N O x Hx. apply in_app_iff in Hx. destruct Hx; auto.
    + left. exists u, t. split; [exact E'|]. intros N O x Hx. apply in_app_iff in Hx. destruct Hx; auto.
Qed.
Lemma state_bits p k : bits p -> bits (state p k).
Proof. intros B. apply Forall_app. split; auto. constructor; auto. apply bits_zeros. Qed.

Lemma resume_all calls fuel p k : bits p -> (length v = length p + 1 + k)%nat -> (length (after p k) < fuel)%nat -> (length (after p k) < calls)%nat -> value v (state p k) = s ->
  exists l, solutions calls fuel s n v true (state p k) (zlen p) = Ok l /\ picked l (after p k) /\
    Forall (fun u => value v u = s) l /\ (natural v -> strictly_ordered v -> forall x, In x (after p k) -> value v x = s -> In x l).
Proof.
  revert p k. induction calls as [|c IH]; intros p k B L F G V; [lia|]. cbn [solutions].
  destruct (resume_spec fuel p k B L F V) as [(u & t & E & P)|(p' & k' & pre & B' & L' & E & EL & V' & P)]; rewrite E; cbn [bind].
  - exists []. split; [reflexivity|]. split; [clear; induction (after p k); constructor; auto|]. split; [constructor|]. intros N O x Hx Hv. exfalso. exact (P N O x Hx Hv).
  - rewrite EL in F, G. rewrite app_length in F, G. cbn in F, G. destruct (IH p' k' B' L') as (l & El & Sl & Vl & Cl); [lia|lia|exact V'|]. rewrite El. cbn [bind].
    exists (state p' k' :: l). split; [reflexivity|]. split; [rewrite EL; clear - Sl; induction pre as [|x pre IH]; cbn; constructor; auto|]. split; [constructor; auto|].
    intros N O x Hx Hv. rewrite EL in Hx. apply in_app_iff in Hx. destruct Hx as [Hx|[<-|Hx]]; [exfalso; exact (P N O x Hx Hv)|left; reflexivity|right; auto].
Qed.
End Loop.

(** the whole enumeration *)
Lemma first_call s v calls fuel : v <> [] -> 0 < s -> (2 ^ length v < calls)%nat -> (2 ^ length v < fuel)%nat ->
  exists l, solutions calls fuel s (zlen v) v false [] (-1) = Ok l /\ picked l (gen [] (length v)) /\ Forall (fun u => value v u = s) l /\
    (natural v -> strictly_ordered v -> forall x, In x (gen [] (length v)) -> value v x = s -> In x l) /\
    (natural v -> ordered v -> forall x, In x (gen [] (length v)) -> value v x = s -> l <> []).
Proof.
  intros Nv Hs C F. destruct calls as [|c]; [lia|]. destruct fuel as [|f]; [lia|]. cbn [solutions]. unfold subset_sum_next. cbn [negb].
  set (F' := S f) in *. unfold F' at 1. cbn [next_loop]. replace (Z.to_nat (zlen v)) with (length v) by (unfold zlen; lia). fold (zeros (length v)).
  rewrite value_dot by apply zeros_length. cbn [bind]. rewrite value_zeros. remember (length v) as m eqn:Em. destruct m as [|m]; [destruct v; [contradiction|discriminate]|].
  assert (zlen v = Z.of_nat (S m)) as Hz by (unfold zlen; lia).
  assert (0 <? s = true) as -> by (apply Z.ltb_lt; lia). assert (-1 <? zlen v - 1 = true) as -> by (apply Z.ltb_lt; lia). cbn [andb].
  assert (put (zeros (S m)) (-1 + 1) 1 = Ok (state [] m)) as -> by (apply (put_mid [])). cbn [bind]. change (-1 + 1) with (zlen (@nil Z)).
  assert (G : gen [] (S m) = state [] m :: after [] m). { unfold after, skipped. cbn [rev rest gen app]. rewrite app_nil_r. reflexivity. }
  assert (LG := gen_length (S m) []). rewrite G in *. cbn [length] in LG.
  assert (Lm : (length v = length (@nil Z) + 1 + m)%nat) by (cbn; lia).
  destruct (loop_spec s v f [] m (Forall_nil _) Lm) as [(p & k & pre & B & L & E & EL & V & P)|(u & t & E & P)]; [lia| |]; rewrite E; cbn [bind].
  - assert (LA : (length (after p k) <= length (after [] m))%nat). { apply (f_equal (@length _)) in EL. rewrite app_length in EL. cbn in EL. lia. }
    destruct (resume_all s v c F' p k B L) as (l & El & Sl & Vl & Cl); [unfold F'; lia|lia|exact V|]. rewrite El. cbn [bind]. exists (state p k :: l). split; [reflexivity|]. rewrite EL.
    split; [clear - Sl; induction pre as [|x pre IH]; cbn; constructor; auto|]. split; [constructor; auto|]. split; [|discriminate].
    intros N O x Hx Hv. assert (W : ordered v) by (intros i j H; specialize (O i j H); lia). apply in_app_iff in Hx. destruct Hx as [Hx|[<-|Hx]]; [exfalso; exact (P N W x Hx Hv)|left; reflexivity|right; auto].
  - exists []. split; [reflexivity|]. split; [clear; induction (_ :: _); constructor; auto|]. split; [constructor|]. split.
    + intros N O x Hx Hv. assert (W : ordered v) by (intros i j H; specialize (O i j H); lia). exfalso. exact (P N W x Hx Hv).
    + intros N O x Hx Hv. exfalso. exact (P N O x Hx Hv).
Qed.
Lemma gen_all n x : In x (gen [] n) <-> length x = n /\ bits x /\ x <> zeros n.
Proof. rewrite gen_spec. cbn [app]. split; [intros (y & -> & H); exact H|]. intros H. exists x. auto. Qed.


Lemma negative_sum s v c f : v <> [] -> s < 0 -> solutions (S c) (S f) s (zlen v) v false [] (-1) = Ok [].
Proof.
  intros Nv Hs. cbn [solutions]. unfold subset_sum_next. cbn [negb next_loop]. replace (Z.to_nat (zlen v)) with (length v) by (unfold zlen; lia). fold (zeros (length v)).
  rewrite value_dot by apply zeros_length. cbn [bind]. rewrite value_zeros. assert (0 <? s = false) as -> by (apply Z.ltb_ge; lia). cbn [andb].
  assert (0 =? s = false) as -> by (apply Z.eqb_neq; lia). unfold put. cbn [Z.ltb Z.compare]. rewrite zlen_zeros.
  assert (0 < length v)%nat by (destruct v; [contradiction|cbn; lia]).
  assert (0 <=? -1 + Z.of_nat (length v) = true) as -> by (apply Z.leb_le; lia). assert (-1 + Z.of_nat (length v) <? Z.of_nat (length v) = true) as -> by (apply Z.ltb_lt; lia).
  reflexivity.
Qed.
Lemma zero_sum v c f : v <> [] -> (1 < c)%nat -> (0 < f)%nat -> solutions c f 0 (zlen v) v false [] (-1) = Ok [zeros (length v)].
Proof.
  intros Nv Hc Hf. destruct c as [|[|c]]; [lia|lia|]. destruct f as [|f]; [lia|]. cbn [solutions]. unfold subset_sum_next. cbn [negb next_loop]. replace (Z.to_nat (zlen v)) with (length v) by (unfold zlen; lia). fold (zeros (length v)).
  rewrite value_dot by apply zeros_length. cbn [bind]. rewrite value_zeros. cbn [Z.ltb Z.compare andb Z.eqb bind negb].
  unfold put. cbn [Z.ltb Z.compare]. rewrite zlen_zeros.
  assert (0 < length v)%nat by (destruct v; [contradiction|cbn; lia]).
  assert (0 <=? -1 + Z.of_nat (length v) = true) as -> by (apply Z.leb_le; lia). assert (-1 + Z.of_nat (length v) <? Z.of_nat (length v) = true) as -> by (apply Z.ltb_lt; lia).
  reflexivity.
Qed.
(** the documented calls always end and give solutions only, each of them once - whatever the values *)
Theorem C67_sound s v calls fuel : v <> [] -> (2 ^ length v < calls)%nat -> (2 ^ length v < fuel)%nat ->
  exists l, solutions calls fuel s (zlen v) v false [] (-1) = Ok l /\ NoDup l /\ forall u, In u l -> solution s v u.
Proof.
  intros Nv C F. destruct (Z.lt_trichotomy s 0) as [Hs|[Hs|Hs]].
  - exists []. split; [|split; [constructor|intros ? []]]. destruct calls; [lia|]. destruct fuel; [lia|]. apply (negative_sum s v); auto.
  - subst s. exists [zeros (length v)]. split; [apply zero_sum; auto; pose proof (Nat.pow_nonzero 2 (length v)); lia|]. split; [repeat constructor; intros []|].
    intros u [<-|[]]. split; [apply zeros_length|]. split; [apply bits_zeros|apply value_zeros].
  - destruct (first_call s v calls fuel Nv Hs C F) as (l & E & Sl & Vl & _ & _). exists l. split; [exact E|]. split; [eapply picked_NoDup; [exact Sl|apply gen_NoDup]|].
    intros u Hu. pose proof (picked_In _ _ _ Sl Hu) as G. apply gen_all in G. destruct G as (L & B & _). split; [exact L|]. split; [exact B|]. rewrite Forall_forall in Vl. apply Vl, Hu.
Qed.

(** values in strictly ascending order: the calls list every solution, once; s = 0 asks for positive values *)
Theorem C67_all_solutions s v calls fuel : v <> [] -> natural v -> strictly_ordered v -> (s = 0 -> Forall (fun x => 0 < x) v) ->
  (2 ^ length v < calls)%nat -> (2 ^ length v < fuel)%nat ->
  exists l, solutions calls fuel s (zlen v) v false [] (-1) = Ok l /\ NoDup l /\ forall u, In u l <-> solution s v u.
Proof.
  intros Nv N O Hz C F. destruct (C67_sound s v calls fuel Nv C F) as (l & E & D & Sd). exists l. split; [exact E|]. split; [exact D|].
  intros u. split; [apply Sd|]. intros (L & B & V). destruct (Z.lt_trichotomy s 0) as [Hs|[Hs|Hs]].
  - pose proof (value_nonneg v u N B). lia.
  - rewrite Hs in *. rewrite (zero_sum v) in E; auto; [|pose proof (Nat.pow_nonzero 2 (length v)); lia|pose proof (Nat.pow_nonzero 2 (length v)); lia]. injection E as <-.
    destruct (list_eq_dec Z.eq_dec u (zeros (length v))) as [->|X]; [left; reflexivity|]. destruct (value_some v u N B L X) as [j [Hj Vj]].
    specialize (Hz eq_refl). rewrite Forall_forall in Hz. specialize (Hz (nth j v 0) (nth_In _ _ Hj)). cbn beta in Hz. lia.
  - destruct (first_call s v calls fuel Nv Hs C F) as (l' & E' & _ & _ & A & _). rewrite E in E'. injection E' as <-. apply (A N O); [|exact V]. apply gen_all. split; [exact L|]. split; [exact B|].
    intros ->. rewrite value_zeros in V. lia.
Qed.
(** values in ascending order with repetitions: at least the first solution is found if there is one *)
Theorem C67_first_solution_partial s v calls fuel : v <> [] -> natural v -> ordered v ->
  (2 ^ length v < calls)%nat -> (2 ^ length v < fuel)%nat ->
  exists l, solutions calls fuel s (zlen v) v false [] (-1) = Ok l /\ (l = [] <-> forall u, ~ solution s v u).
Proof.
  intros Nv N O C F. destruct (C67_sound s v calls fuel Nv C F) as (l & E & D & Sd). exists l. split; [exact E|]. split.
  - intros -> u (L & B & V). destruct (Z.lt_trichotomy s 0) as [Hs|[Hs|Hs]].
    + pose proof (value_nonneg v u N B). lia.
    + rewrite Hs in *. rewrite (zero_sum v) in E; auto; [discriminate| |]; pose proof (Nat.pow_nonzero 2 (length v)); lia.
    + destruct (first_call s v calls fuel Nv Hs C F) as (l' & E' & _ & _ & _ & A). rewrite E in E'. injection E' as <-. apply (A N O u); [|exact V|reflexivity]. apply gen_all. split; [exact L|]. split; [exact B|].
      intros ->. rewrite value_zeros in V. lia.
  - intros H. destruct l as [|u l]; [reflexivity|]. exfalso. apply (H u), Sd. left; reflexivity.
Qed.
Example C67_example : strictly_ordered [1; 2; 3; 4] /\ natural [1; 2; 3; 4] /\
  solutions 20 20 5 4 [1; 2; 3; 4] false [] (-1) = Ok [[1; 0; 0; 1]; [0; 1; 1; 0]].
Proof.
  split; [|split; [repeat constructor; lia|vm_compute; reflexivity]]. intros i j [H1 H2]. cbn [length] in H2. destruct i as [|[|[|i]]], j as [|[|[|[|j]]]]; cbn; lia.
Qed.
(** "Duplicate values are allowed": with a repeated value a solution is left out *)
Theorem C67_repeated_value_refuted : ordered [1; 2; 2] /\ solution 3 [1; 2; 2] [1; 0; 1] /\
  solutions 10 10 3 3 [1; 2; 2] false [] (-1) = Ok [[1; 1; 0]].
Proof.
  split; [|split; [split; [reflexivity|split; [apply Forall_forall; cbn; intros x Hx; intuition auto|reflexivity]]|vm_compute; reflexivity]].
  intros i j [H1 H2]. cbn [length] in H2. destruct i as [|[|i]], j as [|[|[|j]]]; cbn; lia.
Qed.
(** s = 0 with a value of zero *)
Theorem C67_zero_value_refuted : solution 0 [0; 1] [1; 0] /\ solutions 10 10 0 2 [0; 1] false [] (-1) = Ok [[0; 0]].
Proof. split; [split; [reflexivity|split; [apply Forall_forall; cbn; intros x Hx; intuition auto|reflexivity]]|vm_compute; reflexivity]. Qed.
(** without any values the first call fails instead of reporting that there is no solution *)
Theorem C67_no_values_refuted s calls fuel : s <> 0 -> (0 < calls)%nat -> (0 < fuel)%nat -> solutions calls fuel s 0 [] false [] (-1) = Err IndexError.
Proof.
  intros Hs C F. destruct calls; [lia|]. destruct fuel; [lia|]. cbn. rewrite andb_false_r. destruct s; [contradiction|reflexivity|reflexivity].
Qed.
Print Assumptions C67_sound.
Print Assumptions C67_all_solutions.
Print Assumptions C67_first_solution_partial.
Print Assumptions C67_example.
Print Assumptions C67_repeated_value_refuted.
Print Assumptions C67_zero_value_refuted.
Print Assumptions C67_no_values_refuted.
